(** * Sandpile: the order of the topplings does not matter *)
From Verif Require Import Py PyFacts ListFacts TopologySpec TopologyProofs HopfieldProofs SandpileSpec SandpileProofs SandpileProofs2 AbelSpec.
Open Scope list_scope.
Open Scope Z_scope.

Section Abel.
  Variables (closed : bool) (rows cols : Z).
  Notation N := (rows * cols).
  Notation live := (live closed rows cols).
  Notation edge := (edge closed rows cols).
  Notation topple := (topple closed rows cols).
  Notation topples := (topples closed rows cols).
  Notation stable := (stable rows cols).
  Notation edge_empty := (edge_empty closed rows cols).

  (** grains that [w] gets when the cells of [l] topple, and topplings of [w] in [l] *)
  Definition recv (l : list Z) (w : Z) : Z := zsum (map (fun u => if beside rows cols u w then 1 else 0) l).
  Definition times (l : list Z) (w : Z) : Z := zsum (map (fun u => if w =? u then 1 else 0) l).
  Definition after (s : Z -> Z) (l : list Z) (w : Z) : Z := if edge w then 0 else s w + recv l w - 4 * times l w.

  Lemma recv_nonneg l w : 0 <= recv l w.
  Proof. apply zsum_nonneg. intros u _. destruct (beside rows cols u w); lia. Qed.
  Lemma times_none l w : ~ In w l -> times l w = 0.
  Proof. induction l as [|x l IH]; intros Hn; [reflexivity|]. unfold times. cbn [map]. rewrite zsum_cons. fold (times l w). rewrite IH by (intros Hx; apply Hn; right; exact Hx). destruct (Z.eqb_spec w x) as [E|]; [exfalso; apply Hn; left; symmetry; exact E|lia]. Qed.
  Lemma recv_cons x l w : recv (x :: l) w = (if beside rows cols x w then 1 else 0) + recv l w.
  Proof. unfold recv. cbn [map]. apply zsum_cons. Qed.
  Lemma times_cons x l w : times (x :: l) w = (if w =? x then 1 else 0) + times l w.
  Proof. unfold times. cbn [map]. apply zsum_cons. Qed.
  Lemma after_perm s l l' w : Permutation l l' -> after s l w = after s l' w.
  Proof. intros Hp. unfold after, recv, times. rewrite (zsum_map_perm _ _ _ Hp), (zsum_map_perm (fun u => if w =? u then 1 else 0) _ _ Hp). reflexivity. Qed.
  Lemma after_topple s v l w : after (topple v s) l w = after s (v :: l) w.
  Proof. unfold after, AbelSpec.topple. rewrite recv_cons, times_cons. destruct (edge w) eqn:E; [reflexivity|]. destruct (beside rows cols v w), (w =? v); lia. Qed.

  Lemma topples_ext s l s' : topples s l s' -> forall t, (forall w, 0 <= w < N -> t w = s w) -> topples t l s'.
  Proof.
    induction 1 as [s s' E|s v l s' Hv H4 Hl IH]; intros t Et; constructor; auto.
    - intros w Hw. rewrite Et by exact Hw. apply E, Hw.
    - rewrite Et by apply Hv. exact H4.
    - apply IH. intros w Hw. unfold AbelSpec.topple. rewrite Et by exact Hw. reflexivity.
  Qed.

  Lemma topples_ext_r s l s' t : topples s l s' -> (forall w, 0 <= w < N -> t w = s' w) -> topples s l t.
  Proof. induction 1 as [s s' E|s v l s' Hv H4 Hl IH]; intros Et; constructor; auto. intros w Hw. rewrite Et, E by exact Hw. reflexivity. Qed.

  (** where a sequence of topplings leads depends on how often each cell topples only *)
  Lemma topples_after s l s' : topples s l s' -> edge_empty s -> forall w, 0 <= w < N -> s' w = after s l w.
  Proof.
    induction 1 as [s s' E|s v l s' Hv H4 Hl IH]; intros He w Hw.
    - rewrite E by exact Hw. unfold after. destruct (edge w) eqn:Ew; [apply He; assumption|]. cbn. lia.
    - rewrite <- after_topple. apply IH; [|exact Hw]. intros u Hu Eu. unfold AbelSpec.topple. rewrite Eu. reflexivity.
  Qed.

  Lemma topples_empty s l s' : topples s l s' -> edge_empty s -> edge_empty s'.
  Proof. intros Hl He w Hw Ew. rewrite (topples_after _ _ _ Hl He w Hw). unfold after. rewrite Ew. reflexivity. Qed.

  Lemma topples_live s l s' : topples s l s' -> Forall live l.
  Proof. induction 1; constructor; assumption. Qed.

  Lemma topples_app s l t l' s' : topples s l t -> topples t l' s' -> topples s (l ++ l') s'.
  Proof.
    intros Hl Hl'. induction Hl as [s t E|s v l t Hv H4 Hl IH]; cbn [app].
    - eapply topples_ext; [exact Hl'|]. intros w Hw. symmetry. apply E, Hw.
    - constructor; auto.
  Qed.

  (** if toppling the cells of [m], allowed or not, leaves every cell with less than 4 grains, then every allowed sequence is a part of [m] *)
  Lemma least_action s l s' : topples s l s' -> forall m, (forall w, live w -> after s m w < 4) -> exists m', Permutation m (l ++ m').
  Proof.
    induction 1 as [s s' E|s v l s' Hv H4 Hl IH]; intros m Hm; [exists m; reflexivity|].
    destruct (in_dec Z.eq_dec v m) as [Hin|Hout].
    - apply in_split in Hin. destruct Hin as (m1 & m2 & ->). destruct (IH (m1 ++ m2)) as [m' Hp].
      + intros w Hw. rewrite after_topple. rewrite (after_perm s (v :: m1 ++ m2) (m1 ++ v :: m2) w) by (apply Permutation_middle). apply Hm, Hw.
      + exists m'. cbn [app]. rewrite <- Hp. symmetry. apply Permutation_middle.
    - exfalso. specialize (Hm v Hv). unfold after in Hm. destruct Hv as [Hv Ev]. rewrite Ev, (times_none m v Hout) in Hm. pose proof (recv_nonneg m v). lia.
  Qed.

  Lemma times_app l l' w : times (l ++ l') w = times l w + times l' w.
  Proof. unfold times. rewrite map_app. apply zsum_app. Qed.
  Lemma recv_app l l' w : recv (l ++ l') w = recv l w + recv l' w.
  Proof. unfold recv. rewrite map_app. apply zsum_app. Qed.
  Lemma after_app s l t m : topples s l t -> edge_empty s -> forall w, live w -> after t m w = after s (l ++ m) w.
  Proof. intros Hl He w [Hw Ew]. unfold after at 1. rewrite Ew, (topples_after _ _ _ Hl He w Hw). unfold after. rewrite Ew, recv_app, times_app. lia. Qed.

  Lemma stable_after s l s' : topples s l s' -> edge_empty s -> stable s' -> forall w, live w -> after s l w < 4.
  Proof. intros Hl He Hs w [Hw _]. rewrite <- (topples_after _ _ _ Hl He w Hw). apply Hs, Hw. Qed.

  Lemma abelian s l1 s1 l2 s2 : edge_empty s -> topples s l1 s1 -> topples s l2 s2 -> stable s1 -> stable s2 -> Permutation l1 l2 /\ forall w, 0 <= w < N -> s1 w = s2 w.
  Proof.
    intros He H1 H2 S1 S2. destruct (least_action _ _ _ H1 l2 (stable_after _ _ _ H2 He S2)) as [m1 P1]. destruct (least_action _ _ _ H2 l1 (stable_after _ _ _ H1 He S1)) as [m2 P2].
    assert (m1 = []) as ->.
    { apply Permutation_length in P1, P2. rewrite app_length in P1, P2. destruct m1; [reflexivity|cbn [length] in P1; lia]. }
    rewrite app_nil_r in P1. split; [symmetry; exact P1|]. intros w Hw. rewrite (topples_after _ _ _ H1 He w Hw), (topples_after _ _ _ H2 He w Hw). apply after_perm. symmetry. exact P1.
  Qed.

  (** more grains do not stop a sequence of topplings *)
  Lemma topples_more s l s' a : topples s l s' -> (forall w, 0 <= w < N -> 0 <= a w) -> (forall w, 0 <= w < N -> edge w = true -> a w = 0) -> topples (fun w => s w + a w) l (fun w => s' w + a w).
  Proof.
    intros Hl Ha Hz. induction Hl as [s s' E|s v l s' Hv H4 Hl IH]; constructor; auto.
    - intros w Hw. rewrite E by exact Hw. reflexivity.
    - specialize (Ha v (proj1 Hv)). lia.
    - eapply topples_ext; [exact IH|]. intros w Hw. unfold AbelSpec.topple. destruct (edge w) eqn:Ew; [rewrite (Hz w Hw Ew)|]; lia.
  Qed.

  (** the topplings of one timestep, one after the other *)
  Lemma topples_set l : NoDup l -> Forall live l -> forall s, edge_empty s -> Forall (fun v => 4 <= s v) l -> topples s l (after s l).
  Proof.
    induction 1 as [|v l Hn Hnd IH]; intros Hlv s He H4.
    - constructor. intros w Hw. unfold after. destruct (edge w) eqn:Ew; [symmetry; apply He; assumption|cbn; lia].
    - inversion Hlv as [|? ? Hv Hlv']; subst. inversion H4 as [|? ? Hv4 H4']; subst. constructor; [exact Hv|exact Hv4|].
      eapply topples_ext_r; [apply (IH Hlv' (topple v s))|].
      + intros u Hu Eu. unfold AbelSpec.topple. rewrite Eu. reflexivity.
      + rewrite Forall_forall in *. intros u Hu. unfold AbelSpec.topple. rewrite (proj2 (Hlv' u Hu)). specialize (H4' u Hu). destruct (Z.eqb_spec u v) as [->|]; [contradiction|]. destruct (beside rows cols v u); lia.
      + intros w Hw. symmetry. apply after_topple.
  Qed.

  Definition overfull (s : Z -> Z) : list Z := filter (fun v => 4 <=? s v) (zrange 0 N).
  Lemma in_overfull s v : In v (overfull s) <-> 0 <= v < N /\ 4 <= s v.
  Proof. unfold overfull. rewrite filter_In, in_zrange. rewrite Z.leb_le. tauto. Qed.

  Lemma times_once l w : NoDup l -> In w l -> times l w = 1.
  Proof.
    induction 1 as [|x l Hn Hnd IH]; intros Hin; [destruct Hin|]. rewrite times_cons. destruct (Z.eqb_spec w x) as [E|Hne].
    - rewrite E. rewrite (times_none l x Hn). reflexivity.
    - destruct Hin as [E|Hin]; [congruence|]. rewrite (IH Hin). reflexivity.
  Qed.

  Lemma overfull_once s w : times (overfull s) w <= 1.
  Proof.
    assert (Hnd : NoDup (overfull s)) by (apply NoDup_filter, NoDup_zrange). destruct (in_dec Z.eq_dec w (overfull s)) as [Hin|Hout]; [rewrite (times_once _ w Hnd Hin); lia|rewrite times_none by exact Hout; lia].
  Qed.

  Lemma step_topples s s' : edge_empty s -> step rows cols closed s s' -> topples s (overfull s) s'.
  Proof.
    intros He Hs. assert (Hnd : NoDup (overfull s)) by (apply NoDup_filter, NoDup_zrange). eapply topples_ext_r.
    - apply topples_set; [exact Hnd| |exact He|].
      + apply Forall_forall. intros v Hv. apply in_overfull in Hv. destruct Hv as [Hv H4]. split; [exact Hv|]. destruct (edge v) eqn:Ev; [|reflexivity]. rewrite (He v Hv Ev) in H4. lia.
      + apply Forall_forall. intros v Hv. apply in_overfull in Hv. apply Hv.
    - intros w Hw. rewrite (Hs w Hw). unfold sand_next, after. fold (edge w). destruct (edge w); [reflexivity|].
      assert (E : recv (overfull s) w = received rows cols s w).
      { unfold recv, overfull. rewrite zsum_filter_ind. unfold received. apply zsum_ext. intros u _. unfold ind. destruct (4 <=? s u), (beside rows cols u w); reflexivity. }
      rewrite E. destruct (Z.leb_spec 4 (s w)) as [H4|H4].
      + rewrite (times_once _ w Hnd); [lia|]. apply in_overfull. split; assumption.
      + rewrite times_none; [lia|]. rewrite in_overfull. lia.
  Qed.

  Lemma step_edge s s' : step rows cols closed s s' -> edge_empty s'.
  Proof. intros Hs w Hw Ew. rewrite (Hs w Hw). unfold sand_next. fold (edge w). rewrite Ew. reflexivity. Qed.

  (** ** runs: [sg k] is the state after k timesteps *)
  Section Run.
    Variables (sg : nat -> Z -> Z) (K : nat).
    Hypothesis Hstep : forall k, (k < K)%nat -> step rows cols closed (sg k) (sg (S k)).

    Lemma run_topples k n : edge_empty (sg k) -> (k + n <= K)%nat -> exists l, topples (sg k) l (sg (k + n)%nat) /\
      ((forall j, (j < n)%nat -> ~ stable (sg (k + j)%nat)) -> (n <= length l)%nat) /\
      forall w, times l w <= Z.of_nat n.
    Proof.
      intros He. induction n as [|n IH]; intros Hn; [exists []; rewrite Nat.add_0_r; split; [constructor; reflexivity|split; [intros _; reflexivity|intros w; cbn; lia]]|].
      destruct (IH ltac:(lia)) as (l & Hl & Hlen & Htm). pose proof (topples_empty _ _ _ Hl He) as He'. pose proof (Hstep (k + n)%nat ltac:(lia)) as Hs. rewrite Nat.add_succ_r.
      exists (l ++ overfull (sg (k + n)%nat)). split; [eapply topples_app; [exact Hl|apply step_topples; assumption]|]. split.
      2:{ intros w. rewrite times_app. specialize (Htm w). pose proof (overfull_once (sg (k + n)%nat) w). lia. }
      intros Hun. specialize (Hlen (fun j Hj => Hun j ltac:(lia))). rewrite app_length. destruct (overfull (sg (k + n)%nat)) eqn:Eo; [|cbn [length]; lia]. exfalso. apply (Hun n ltac:(lia)).
      intros v Hv. destruct (Z_lt_le_dec (sg (k + n)%nat v) 4) as [|H4]; [assumption|]. assert (Hx : In v (overfull (sg (k + n)%nat))) by (apply in_overfull; split; assumption). rewrite Eo in Hx. destruct Hx.
    Qed.

    Lemma stable_stays k : edge_empty (sg k) -> stable (sg k) -> forall n, (k + n <= K)%nat -> forall w, 0 <= w < N -> sg (k + n)%nat w = sg k w.
    Proof.
      intros He Hs n Hn w Hw. destruct (run_topples k n He Hn) as (l & Hl & _). destruct l as [|v l]; [inversion Hl; subst; auto|]. inversion Hl as [|? ? ? ? Hv H4 _]; subst. specialize (Hs v (proj1 Hv)). lia.
    Qed.

    (** if the grains can be brought to rest with the topplings [m], the run is at rest after length m timesteps *)
    Lemma rest_bound k n m : edge_empty (sg k) -> (forall w, live w -> after (sg k) m w < 4) -> (length m <= n)%nat -> (k + n <= K)%nat -> stable (sg (k + n)%nat).
    Proof.
      intros He Ht Hmn Hn. assert (Hd : forall j, {stable (sg (k + j)%nat)} + {~ stable (sg (k + j)%nat)}).
        { intros j. destruct (Forall_dec (fun v => sg (k + j)%nat v < 4) (fun v => Z_lt_dec _ _) (zrange 0 N)) as [Hf|Hf]; rewrite Forall_forall in Hf.
          - left. intros v Hv. apply Hf, in_zrange, Hv.
          - right. intros Hx. apply Hf. intros v Hv. apply in_zrange in Hv. apply Hx. lia. }
        assert (Hex : (exists j, (j <= n)%nat /\ stable (sg (k + j)%nat)) \/ forall j, (j <= n)%nat -> ~ stable (sg (k + j)%nat)).
        { clear - Hd. induction n as [|n IH].
          - destruct (Hd 0%nat); [left; exists 0%nat; auto|right; intros j Hj; replace j with 0%nat by lia; assumption].
          - destruct IH as [(j & Hj & Hs)|Hno]; [left; exists j; split; [lia|exact Hs]|]. destruct (Hd (S n)); [left; exists (S n); auto|]. right. intros j Hj. destruct (Nat.eq_dec j (S n)) as [->|]; [assumption|apply Hno; lia]. }
        destruct Hex as [(j & Hj & Hs)|Hno].
        - intros v Hv. destruct (run_topples k j He ltac:(lia)) as (l & Hl & _). pose proof (topples_empty _ _ _ Hl He) as He'.
          replace (k + n)%nat with (k + j + (n - j))%nat by lia. rewrite (stable_stays (k + j) He' Hs (n - j)%nat ltac:(lia) v Hv). apply Hs, Hv.
        - exfalso. destruct (run_topples k n He Hn) as (l & Hl & Hlen & _). specialize (Hlen (fun j Hj => Hno j ltac:(lia))).
          destruct (least_action _ _ _ Hl m Ht) as [m' Hp]. pose proof (Permutation_length Hp) as Hpl. rewrite app_length in Hpl. assert (m' = []) as -> by (destruct m'; [reflexivity|cbn [length] in Hpl; lia]).
          rewrite app_nil_r in Hp. apply (Hno n (le_n _)). intros v Hv. destruct (edge v) eqn:Ev; [rewrite (topples_empty _ _ _ Hl He v Hv Ev); lia|]. rewrite (topples_after _ _ _ Hl He v Hv), <- (after_perm _ _ _ v Hp). apply Ht. split; assumption.
    Qed.
  End Run.
End Abel.

(** ** piles that need many timesteps *)
Section Slow.
  Variable n : Z.
  Hypothesis Hn : 3 <= n.

  Lemma four_beside F v : 0 <= v < n * n -> border n n v = false -> zsum (map (fun u => ind (beside n n u v) * F u) (zrange 0 (n * n))) = F (v + 1) + F (v - 1) + F (v + n) + F (v - n).
  Proof.
    intros Hu Hb. destruct (cell_surj n n v ltac:(lia) Hu) as (Eu & Ha & Hd). rewrite <- zsum_filter_ind, (zsum_map_perm _ _ _ (beside_list n n v ltac:(lia) ltac:(lia) Hu)).
    unfold border in Hb. rewrite !orb_false_iff, !Z.eqb_neq in Hb. unfold cell in Eu. set (a := v / n) in *. set (b := v mod n) in *.
    unfold axis. destruct (Z.leb_spec n 1); [lia|]. destruct (Z.eqb_spec n 2); [lia|].
    rewrite (Z.mod_small (b + 1)), (Z.mod_small (b - 1)), (Z.mod_small (a + 1)), (Z.mod_small (a - 1)) by lia. cbn [map app zsum].
    replace (a * n + (b + 1)) with (v + 1) by lia. replace (a * n + (b - 1)) with (v - 1) by lia. replace ((a + 1) * n + b) with (v + n) by lia. replace ((a - 1) * n + b) with (v - n) by lia. lia.
  Qed.

  Lemma recv_times l w : Forall (fun u => 0 <= u < n * n) l -> recv n n l w = zsum (map (fun u => ind (beside n n u w) * times l u) (zrange 0 (n * n))).
  Proof.
    induction 1 as [|x l Hx Hl IH].
    - unfold times. cbn [map]. change (recv n n [] w) with 0. symmetry. rewrite (zsum_ext _ (fun _ => 0)); [|intros; cbn; lia]. induction (zrange 0 (n * n)) as [|y l IH]; [reflexivity|cbn [map]; rewrite zsum_cons, IH; reflexivity].
    - rewrite recv_cons, IH. rewrite (zsum_ext (fun u => ind (beside n n u w) * times (x :: l) u) (fun u => ind (u =? x) * ind (beside n n u w) + ind (beside n n u w) * times l u)).
      2:{ intros u _. rewrite times_cons. unfold ind. destruct (u =? x), (beside n n u w); lia. }
      rewrite zsum_plus. f_equal. rewrite <- zsum_filter_ind. assert (E : filter (fun u => u =? x) (zrange 0 (n * n)) = [x]).
      { assert (Hnd : NoDup (filter (fun u => u =? x) (zrange 0 (n * n)))) by apply NoDup_filter, NoDup_zrange.
        assert (Hin : forall u, In u (filter (fun u => u =? x) (zrange 0 (n * n))) <-> u = x) by (intros u; rewrite filter_In, in_zrange, Z.eqb_eq; split; [tauto|intros ->; split; [lia|reflexivity]]).
        assert (Hp : Permutation (filter (fun u => u =? x) (zrange 0 (n * n))) [x]) by (apply NoDup_Permutation; [exact Hnd|repeat constructor; auto|intros u; rewrite Hin; cbn; split; [auto|intros [E|[]]; auto]]).
        apply Permutation_sym, Permutation_length_1_inv in Hp. exact Hp. }
      rewrite E. cbn. unfold ind. lia.
  Qed.

  (** a function on the grid that is nowhere below the mean of its neighbours, and not negative on the border, is not negative *)
  Lemma min_principle (F : Z -> Z) : (forall v, 0 <= v < n * n -> border n n v = true -> 0 <= F v) ->
    (forall v, 0 <= v < n * n -> border n n v = false -> F (v + 1) + F (v - 1) + F (v + n) + F (v - n) <= 4 * F v) -> forall v, 0 <= v < n * n -> 0 <= F v.
  Proof.
    intros Hb Hs.
    assert (Hmin : exists m, 0 <= m < n * n /\ forall v, 0 <= v < n * n -> F m <= F v).
    { assert (Hg : forall l : list Z, l <> [] -> exists m, In m l /\ forall v, In v l -> F m <= F v).
      { induction l as [|x l IH]; [congruence|]. intros _. destruct l as [|y l]; [exists x; split; [left; reflexivity|intros v [<-|[]]; lia]|].
        destruct IH as (m & Hm & Hle); [discriminate|]. destruct (Z_le_gt_dec (F m) (F x)).
        - exists m. split; [right; exact Hm|]. intros v [<-|Hv]; [lia|apply Hle, Hv].
        - exists x. split; [left; reflexivity|]. intros v [<-|Hv]; [lia|]. specialize (Hle v Hv). lia. }
      destruct (Hg (zrange 0 (n * n))) as (m & Hm & Hle).
      - intros E. assert (Hin : In 0 (zrange 0 (n * n))) by (apply in_zrange; nia). rewrite E in Hin. destruct Hin.
      - apply in_zrange in Hm. exists m. split; [lia|]. intros v Hv. apply Hle, in_zrange. lia. }
    destruct Hmin as (m & Hm & Hle). intros v Hv. specialize (Hle v Hv) as Hmv. enough (0 <= F m) by lia. clear v Hv Hmv.
    remember (Z.to_nat m) as k eqn:Ek. revert m Hm Hle Ek. induction k as [k IH] using lt_wf_ind. intros m Hm Hle Ek. destruct (border n n m) eqn:Eb; [apply Hb; assumption|].
    pose proof (Hs m Hm Eb) as Hsum. destruct (cell_surj n n m ltac:(lia) Hm) as (Eu & Ha & Hd). unfold cell in Eu. unfold border in Eb. rewrite !orb_false_iff, !Z.eqb_neq in Eb. set (a := m / n) in *. set (b := m mod n) in *.
    pose proof (Hle (m + 1) ltac:(nia)). pose proof (Hle (m - 1) ltac:(nia)). pose proof (Hle (m + n) ltac:(nia)). pose proof (Hle (m - n) ltac:(nia)). assert (E : F (m - 1) = F m) by lia.
    rewrite <- E. apply (IH (Z.to_nat (m - 1))); [nia|nia| |reflexivity]. intros v Hv. rewrite E. apply Hle, Hv.
  Qed.

  (** from at least 4 grains on each inner cell, the middle must topple about n*n/16 times *)
  Lemma slow s l s' : (forall v, live true n n v -> 4 <= s v) -> edge_empty true n n s -> topples true n n s l s' -> stable n n s' ->
    (n - 1) * (n - 1) <= 16 * times l ((n - 1) / 2 * n + (n - 1) / 2) + 2.
  Proof.
    intros H4 He Hl Hst. set (m := n - 1). set (c := m / 2).
    assert (Hlive : Forall (live true n n) l) by (eapply topples_live; exact Hl).
    assert (Hin : Forall (fun u => 0 <= u < n * n) l) by (eapply Forall_impl; [|exact Hlive]; intros u [Hu _]; exact Hu).
    set (q := m * m / 4). set (G := fun v => v mod n * (m - v mod n) + v / n * (m - v / n) - q). set (F := fun v => 4 * times l v - G v).
    assert (Hquad : forall x, x * (m - x) <= q).
    { intros x. unfold q. apply Z.div_le_lower_bound; [lia|]. assert (0 <= (m - 2 * x) * (m - 2 * x)) by apply Z.square_nonneg. nia. }
    assert (Hdm : forall a b, 0 <= b < n -> (a * n + b) / n = a /\ (a * n + b) mod n = b).
    { intros a b Hb. rewrite Z.add_comm. rewrite Z.div_add, Z.mod_add by lia. rewrite Z.div_small, Z.mod_small by lia. lia. }
    assert (Hmid : 0 <= c < n) by (unfold c, m; split; [apply Z.div_pos; lia|apply Z.div_lt_upper_bound; lia]).
    assert (HF : 0 <= F (c * n + c)).
    { apply min_principle.
      - intros v Hv Eb. unfold F. rewrite times_none.
        2:{ intros Hx. rewrite Forall_forall in Hlive. destruct (Hlive v Hx) as [_ Ev]. unfold edge in Ev. cbn [andb] in Ev. congruence. }
        unfold G. unfold border in Eb. rewrite !orb_true_iff, !Z.eqb_eq in Eb. fold m in Eb. pose proof (Hquad (v mod n)). pose proof (Hquad (v / n)).
        destruct Eb as [[[Eb|Eb]|Eb]|Eb]; rewrite Eb in *; lia.
      - intros v Hv Eb. assert (Hlv : live true n n v) by (split; [exact Hv|unfold edge; exact Eb]). pose proof (topples_after _ _ _ _ _ _ Hl He v Hv) as Ea. unfold after in Ea. rewrite (proj2 Hlv), (recv_times l v Hin), (four_beside _ v Hv Eb) in Ea.
        specialize (H4 v Hlv). specialize (Hst v Hv).
        destruct (cell_surj n n v ltac:(lia) Hv) as (Eu & Ha & Hd). unfold cell in Eu. unfold border in Eb. rewrite !orb_false_iff, !Z.eqb_neq in Eb. unfold F, G.
        set (a := v / n) in *. set (b := v mod n) in *. clearbody a b.
        replace (v + 1) with (a * n + (b + 1)) in * by lia. replace (v - 1) with (a * n + (b - 1)) in * by lia. replace (v + n) with ((a + 1) * n + b) in * by lia. replace (v - n) with ((a - 1) * n + b) in * by lia.
        destruct (Hdm a (b + 1) ltac:(lia)) as [-> ->]. destruct (Hdm a (b - 1) ltac:(lia)) as [-> ->]. destruct (Hdm (a + 1) b ltac:(lia)) as [-> ->]. destruct (Hdm (a - 1) b ltac:(lia)) as [-> ->].
        pose proof (Hdm a b Hd) as [Q1 Q2]. rewrite <- Eu in Q1, Q2. lia.
      - nia. }
    unfold F, G in HF. destruct (Hdm c c Hmid) as [E1 E2]. rewrite E1, E2 in HF.
    assert (Hc : 4 * (c * (m - c)) >= m * m - 1).
    { unfold c. pose proof (Z.div_mod m 2 ltac:(lia)) as D. pose proof (Z.mod_pos_bound m 2 ltac:(lia)) as D'. set (h := m / 2) in *. clearbody h. nia. }
    assert (Hq : 4 * q <= m * m) by (unfold q; apply Z.mul_div_le; lia). change ((n - 1) * (n - 1)) with (m * m). nia.
  Qed.
End Slow.
