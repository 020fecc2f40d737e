(** * C129: a fungal colony that grows from one agent *)
From Coq Require Import QArith Permutation Lqa.
From Verif Require Import Py PyFacts ListFacts Network NetworkSpec Evolve EvolveSpec SandpileSpec FungalSpec Fungal FungalProofs FungalProofs2 PropFungal EvolveProofs2 EvolveTopo PropEvolve Utils PropUtils FungalDemo.
Open Scope list_scope.
Open Scope Z_scope.

(** [v] can be reached from [p] in at most [k] steps to a cell beside *)
Inductive reached (rows cols p : Z) : nat -> Z -> Prop :=
| reached_here k : reached rows cols p k p
| reached_on k u v : reached rows cols p k u -> beside rows cols u v = true -> reached rows cols p (S k) v.

(** one agent [p] that has [a], nothing anywhere else *)
Definition lone (N p : Z) (a : Q) (ic : list Q) : Prop := 0 <= p < N /\ (0 < a)%Q /\ Z.of_nat (length ic) = N /\ forall v, 0 <= v < N -> nth_error ic (Z.to_nat v) = Some (if v =? p then a else 0%Q).

(** all that the agents have *)
Definition total_amount (N : Z) (S : dict Z Q) : Q := Qsum (map (amount S) (zrange 0 N)).

Lemma reached_S rows cols p k v : reached rows cols p k v -> reached rows cols p (S k) v.
Proof. induction 1 as [k|k u v _ IH Hb]; [apply reached_here|eapply reached_on; eassumption]. Qed.

(** ** sums *)
Lemma Qsum_ext {X} (f g : X -> Q) l : (forall x, In x l -> (f x == g x)%Q) -> (Qsum (map f l) == Qsum (map g l))%Q.
Proof. induction l as [|x l IH]; intros H; [reflexivity|]. cbn [map Qsum fold_right]. fold (Qsum (map f l)) (Qsum (map g l)). rewrite (H x (or_introl eq_refl)), IH; [reflexivity|]. intros y Hy. apply H. right. exact Hy. Qed.
Lemma Qsum_le {X} (f g : X -> Q) l : (forall x, In x l -> (f x <= g x)%Q) -> (Qsum (map f l) <= Qsum (map g l))%Q.
Proof. induction l as [|x l IH]; intros H; [apply Qle_refl|]. cbn [map Qsum fold_right]. fold (Qsum (map f l)) (Qsum (map g l)). apply Qplus_le_compat; [apply H; left; reflexivity|]. apply IH. intros y Hy. apply H. right. exact Hy. Qed.
Lemma Qsum_plus {X} (f g : X -> Q) l : (Qsum (map (fun x => f x + g x) l) == Qsum (map f l) + Qsum (map g l))%Q.
Proof. induction l as [|x l IH]; [reflexivity|]. cbn [map Qsum fold_right]. fold (Qsum (map f l)) (Qsum (map g l)) (Qsum (map (fun x => f x + g x)%Q l)). rewrite IH. ring. Qed.
Lemma Qsum_zero {X} (l : list X) : (Qsum (map (fun _ => 0) l) == 0)%Q.
Proof. induction l as [|x l IH]; [reflexivity|]. cbn [map Qsum fold_right]. fold (Qsum (map (fun _ : X => 0%Q) l)). rewrite IH. reflexivity. Qed.
Lemma Qsum_swap {X Y} (f : X -> Y -> Q) l m : (Qsum (map (fun x => Qsum (map (f x) m)) l) == Qsum (map (fun y => Qsum (map (fun x => f x y) l)) m))%Q.
Proof.
  induction l as [|x l IH]; [cbn; symmetry; apply Qsum_zero|]. cbn [map Qsum fold_right]. fold (Qsum (map (fun x => Qsum (map (f x) m)) l)). rewrite IH, <- Qsum_plus. apply Qsum_ext. intros y _. reflexivity.
Qed.
Lemma Qsum_filter {X} (b : X -> bool) (f : X -> Q) l : (Qsum (map f (filter b l)) == Qsum (map (fun x => if b x then f x else 0) l))%Q.
Proof. induction l as [|x l IH]; [reflexivity|]. cbn [filter]. destruct (b x) eqn:E; cbn [map Qsum fold_right]; rewrite E; fold (Qsum (map f (filter b l))) (Qsum (map (fun x => if b x then f x else 0%Q) l)); rewrite IH; ring. Qed.
Lemma Qsum_const {X} (c : Q) (l : list X) : (Qsum (map (fun _ => c) l) == inject_Z (Z.of_nat (length l)) * c)%Q.
Proof. induction l as [|x l IH]; [cbn; ring|]. cbn [map Qsum fold_right]. fold (Qsum (map (fun _ : X => c) l)). rewrite IH. cbn [length]. rewrite Nat2Z.inj_succ, <- Z.add_1_l, inject_Z_plus. change (inject_Z 1) with 1%Q. ring. Qed.
(** one summand *)
Lemma Qsum_one (p : Z) (c : Q) l : NoDup l -> In p l -> (Qsum (map (fun v => if v =? p then c else 0) l) == c)%Q.
Proof.
  induction l as [|x l IH]; intros Hnd Hin; [destruct Hin|]. inversion Hnd as [|? ? Hx Hnd']. subst. cbn [map Qsum fold_right]. fold (Qsum (map (fun v => if v =? p then c else 0%Q) l)).
  destruct (Z.eqb_spec x p) as [->|Hne].
  - rewrite (Qsum_ext _ (fun _ => 0%Q)); [rewrite Qsum_zero; ring|]. intros v Hv. destruct (Z.eqb_spec v p) as [->|]; [contradiction|reflexivity].
  - destruct Hin as [->|Hin]; [contradiction|]. rewrite IH by assumption. ring.
Qed.

(** ** one step, told with the links [E] and the amounts [S], [S'] only *)
Section Step.
  Context (N p : Z) (E : Z -> Z -> bool) (R_E : Q) (layer : Z -> Q) (S S' : dict Z Q).
  Hypotheses (Hp : 0 <= p < N) (HR : (0 <= R_E)%Q) (Hflow : flow N E R_E layer S S') (Hnn : forall v, 0 <= v < N -> (0 <= amount S v)%Q).
  Hypotheses (Hlay : forall v, 0 <= v < N -> (layer v == if v =? p then 1 else 0)%Q) (Hdead : forall v, 0 <= v < N -> v <> p -> sources N E v = [] -> (amount S v == 0)%Q).
  Notation L := (zrange 0 N).
  Notation share u := (amount S u / inject_Z (Z.of_nat (length (targets N E u))))%Q.

  (** what is sent is at most what there is *)
  Lemma sent_le : (Qsum (map (fun v => Qsum (map (fun u => share u) (sources N E v))) L) <= total_amount N S)%Q.
  Proof.
    unfold sources. rewrite (Qsum_ext _ (fun v => Qsum (map (fun u => if E u v then share u else 0%Q) L))) by (intros v _; apply Qsum_filter). rewrite (Qsum_swap (fun v u => if E u v then share u else 0%Q)). apply Qsum_le. intros u Hu. apply in_zrange in Hu.
    rewrite <- (Qsum_filter (E u) (fun _ => share u)). rewrite Qsum_const. fold (targets N E u). destruct (targets N E u) as [|x l] eqn:Et; [cbn [length]; change (inject_Z (Z.of_nat 0)) with 0%Q; rewrite Qmult_0_l; exact (Hnn u Hu)|]. rewrite <- Et. set (m := inject_Z (Z.of_nat (length (targets N E u)))).
    assert (Hm : (0 < m)%Q) by (unfold m; change 0%Q with (inject_Z 0); rewrite <- Zlt_Qlt; rewrite Et; cbn [length]; lia). setoid_replace (m * (amount S u / m))%Q with (amount S u) by (field; lra). apply Qle_refl.
  Qed.

  Lemma step_total : (total_amount N S' <= total_amount N S + (match sources N E p with [] => amount S p | _ => 0 end) + R_E)%Q.
  Proof.
    set (kp := match sources N E p with [] => amount S p | _ => 0%Q end).
    assert (Hin : In p L) by (apply in_zrange; exact Hp). assert (Hnd : NoDup L) by apply NoDup_zrange.
    assert (Hb : (total_amount N S' <= Qsum (map (fun v => (Qsum (map (fun u => share u) (sources N E v)) + (if v =? p then kp else 0)) + (if v =? p then R_E else 0)) L))%Q).
    { apply Qsum_le. intros v Hv. apply in_zrange in Hv. rewrite (Hflow v Hv).
      assert (H1 : ((match sources N E v with [] => amount S v | l => Qsum (map (fun u => share u) l) end) <= Qsum (map (fun u => share u) (sources N E v)) + (if (v =? p)%Z then kp else 0))%Q).
      { destruct (Z.eqb_spec v p) as [->|Hne].
        - unfold kp. destruct (sources N E p) as [|x l] eqn:Es; [change (Qsum (map (fun u => share u) [])) with 0%Q; lra|lra].
        - destruct (sources N E v) as [|x l] eqn:Es; [|lra]. change (Qsum (map (fun u => share u) [])) with 0%Q. rewrite (Hdead v Hv Hne Es). lra. }
      assert (H2 : ((if Qlt_le_dec 0 (amount S v) then R_E * layer v else 0) <= (if (v =? p)%Z then R_E else 0))%Q).
      { destruct (Qlt_le_dec 0 (amount S v)); [rewrite (Hlay v Hv)|]; destruct (v =? p); lra. }
      apply Qplus_le_compat; [exact H1|exact H2]. }
    eapply Qle_trans; [exact Hb|]. rewrite !Qsum_plus, !Qsum_one by assumption. pose proof sent_le. lra.
  Qed.
End Step.

Section Runs.
  Context {BA BN I : Type}.
  Variable W : env Z Q Q BA BN.
  Hypothesis Wlab : forall i, e_lab W i = Z.of_nat i.
  Context (R_E a : Q) (w h p T : Z) (ic : list Q) (hs : list (dict Z Q * network Z Q)).
  Hypotheses (Hw : 0 < w) (Hh : 0 < h) (HR : (0 <= R_E)%Q) (Hic : lone (w * h) p a ic) (Hhist : fungal_history W (I := I) R_E w h ic [] T hs).

  Lemma lone_setup : fungal_setup w h ic [].
  Proof. destruct Hic as (_ & _ & Hl & _). unfold fungal_setup. auto. Qed.
  Lemma lone_nonneg : Forall (Qle 0) ic.
  Proof.
    destruct Hic as (_ & Ha & Hl & Hv). apply Forall_forall. intros x Hx. apply In_nth_error in Hx. destruct Hx as (i & Ei). assert (Hi : (i < length ic)%nat) by (apply nth_error_Some; congruence).
    specialize (Hv (Z.of_nat i) ltac:(lia)). rewrite Nat2Z.id, Ei in Hv. injection Hv as ->. destruct (Z.of_nat i =? p); lra.
  Qed.
  Lemma lone_layer v : 0 <= v < w * h -> (layer_at [] ic v == if v =? p then 1 else 0)%Q.
  Proof.
    intros Hv. destruct Hic as (_ & Ha & Hl & Hn). unfold layer_at. specialize (Hn v Hv). rewrite (nth_error_nth _ _ _ Hn). destruct (v =? p); [|reflexivity].
    destruct (Qeq_bool a 0) eqn:E; [apply Qeq_bool_iff in E; lra|reflexivity].
  Qed.
  Lemma at_start S n v : nth_error hs 0 = Some (S, n) -> 0 <= v < w * h -> amount S v = (if v =? p then a else 0%Q) /\ forall u x, has_edge n u x = false.
  Proof.
    intros E0 Hv. destruct (history_spec W Wlab _ _ _ _ _ _ _ lone_setup Hhist) as (_ & H0 & _). rewrite H0 in E0. injection E0 as <- <-. split.
    - destruct (C69_step W Wlab _ _ _ _ _ _ _ lone_setup Hhist) as [(S0 & n0 & E0 & _ & Hd) _]. rewrite H0 in E0. injection E0 as <- <-. unfold amount. rewrite (Hd v Hv). destruct Hic as (_ & _ & _ & Hn). rewrite (Hn v Hv). reflexivity.
    - intros u x. destruct (C55_links W Wlab _ _ _ _ _ _ _ lone_setup Hhist) as [_ _]. destruct (history_spec W Wlab _ _ _ _ _ _ _ lone_setup Hhist) as (_ & _ & H3 & _). destruct (H3 0%nat _ _ H0) as [(es & Hg) _]. pose proof Hg as (HRn & _ & _).
      destruct (has_edge (init_network (w * h)) u x) eqn:Ee; [|reflexivity]. exfalso. apply (has_edge_in _ _ _ _ _ HRn) in Ee. pose proof (Permutation_map fst (NetworkProofs2.edges_R _ _ HRn)) as Hp'. cbn [g_edges] in Hp'. apply (Permutation_in _ (Permutation_sym Hp')) in Ee.
      assert (Hno : edges (init_network (V := Q) (w * h)) = []) by (unfold edges, init_network; cbn [net_nodes]; induction (zrange 0 (w * h)); [reflexivity|assumption]). rewrite Hno in Ee. destruct Ee.
  Qed.
  Lemma earlier k S' n' : nth_error hs (Datatypes.S k) = Some (S', n') -> exists S n, nth_error hs k = Some (S, n).
  Proof. intros E. destruct (nth_error hs k) as [[S n]|] eqn:Ek; [eauto|]. apply nth_error_None in Ek. assert (nth_error hs (Datatypes.S k) <> None) by congruence. apply nth_error_Some in H. lia. Qed.

  (** the colony spreads by at most one cell in each timestep *)
  Theorem C129_spread : forall k S n v, nth_error hs k = Some (S, n) -> 0 <= v < w * h -> alive S v -> reached h w p k v.
  Proof.
    destruct (C69_alive W Wlab _ _ _ _ _ _ _ lone_setup Hhist HR lone_nonneg ltac:(constructor)) as [_ Hal]. destruct (C69_step W Wlab _ _ _ _ _ _ _ lone_setup Hhist) as [_ Hst].
    destruct (history_spec W Wlab _ _ _ _ _ _ _ lone_setup Hhist) as (_ & _ & H3 & _).
    assert (Hind : forall k S n, nth_error hs k = Some (S, n) -> (forall v, 0 <= v < w * h -> alive S v -> reached h w p k v) /\ (forall u v, has_edge n u v = true -> reached h w p k v)).
    { induction k as [|k IH]; intros S n Ek.
      - assert (Hp : 0 <= p < w * h) by apply Hic. split; [|intros u v Hu; rewrite (proj2 (at_start S n p Ek Hp)) in Hu; discriminate Hu]. intros v Hv Ha. unfold alive in Ha. rewrite (proj1 (at_start S n v Ek Hv)) in Ha. destruct (Z.eqb_spec v p) as [->|]; [apply reached_here|lra].
      - destruct (earlier k S n Ek) as (S1 & n1 & E1). destruct (IH S1 n1 E1) as [IH1 IH2]. destruct (Hst k S1 n1 S n E1 Ek) as [(_ & Hg & _) _].
        assert (Hedge : forall u v, has_edge n u v = true -> reached h w p (Datatypes.S k) v).
        { intros u v Hu. destruct (H3 _ _ _ Ek) as [(es & Hgr) _]. pose proof Hgr as (HRn & _ & (_ & Hsane & _)). assert (Hr := proj1 (has_edge_in _ _ _ _ _ HRn) Hu). destruct (Hsane u v Hr) as (Hur & _).
          destruct (Hg u v Hu) as [Hold|(Hb & Ha & _)]; [apply reached_S, (IH2 u v Hold)|]. eapply reached_on; [|exact Hb]. apply IH1; [rewrite Z.mul_comm; exact Hur|exact Ha]. }
        split; [|exact Hedge]. intros v Hv Ha. destruct (Hal k (Datatypes.S k) S1 n1 S n ltac:(lia) E1 Ek) as [_ Hal']. apply (Hal' v Hv) in Ha. destruct Ha as [Ha|(_ & u & Hu)]; [apply reached_S, IH1; assumption|exact (Hedge u v Hu)]. }
    intros k S n v Ek Hv Ha. exact (proj1 (Hind k S n Ek) v Hv Ha).
  Qed.

  (** the first agent keeps what it sends, as long as no link leads to it *)
  Theorem C129_first : forall k S n, nth_error hs k = Some (S, n) -> (forall u, has_edge n u p = false) -> (amount S p == a + inject_Z (Z.of_nat k) * R_E)%Q.
  Proof.
    destruct (C69_step W Wlab _ _ _ _ _ _ _ lone_setup Hhist) as [_ Hst]. assert (Hp : 0 <= p < w * h) by apply Hic.
    induction k as [|k IH]; intros S n Ek Hno.
    - rewrite (proj1 (at_start S n p Ek Hp)), Z.eqb_refl. change (inject_Z (Z.of_nat 0)) with 0%Q. lra.
    - destruct (earlier k S n Ek) as (S1 & n1 & E1). destruct (Hst k S1 n1 S n E1 Ek) as [(Hstay & _) Hfl]. eapply Qeq_trans; [exact (Hfl p Hp)|].
      assert (Hno1 : forall u, has_edge n1 u p = false) by (intros u; destruct (has_edge n1 u p) eqn:Eu; [apply Hstay in Eu; rewrite Hno in Eu; discriminate Eu|reflexivity]).
      assert (Es : sources (w * h) (has_edge n) p = []) by (unfold sources; induction (zrange 0 (w * h)) as [|x l IHl]; [reflexivity|]; cbn [filter]; rewrite Hno; exact IHl). rewrite Es.
      assert (Hpos : (0 < a + inject_Z (Z.of_nat k) * R_E)%Q). { assert (0 < a)%Q by apply Hic. assert (0 <= inject_Z (Z.of_nat k))%Q by (change 0%Q with (inject_Z 0); rewrite <- Zle_Qle; lia). assert (0 <= inject_Z (Z.of_nat k) * R_E)%Q by (apply Qmult_le_0_compat; assumption). lra. }
      destruct (Qlt_le_dec 0 (amount S1 p)) as [_|Hle]; [|exfalso; pose proof (IH S1 n1 E1 Hno1) as Hq; lra].
      rewrite (lone_layer p Hp), Z.eqb_refl, (IH S1 n1 E1 Hno1). rewrite Nat2Z.inj_succ, <- Z.add_1_l, inject_Z_plus. change (inject_Z 1) with 1%Q. ring.
  Qed.

  (** all that the colony has grows at most with the square of the time *)
  Theorem C129_total : forall k S n, nth_error hs k = Some (S, n) ->
    (total_amount (w * h) S <= inject_Z (Z.of_nat k + 1) * a + (inject_Z (Z.of_nat k) * inject_Z (Z.of_nat k + 1) / 2) * R_E)%Q.
  Proof.
    destruct (C69_step W Wlab _ _ _ _ _ _ _ lone_setup Hhist) as [_ Hst]. destruct (C69_alive W Wlab _ _ _ _ _ _ _ lone_setup Hhist HR lone_nonneg ltac:(constructor)) as [Hnn Hal]. assert (Hp : 0 <= p < w * h) by apply Hic.
    destruct (history_spec W Wlab _ _ _ _ _ _ _ lone_setup Hhist) as (_ & H0 & H3 & _).
    induction k as [|k IH]; intros S n Ek.
    - unfold total_amount. rewrite (Qsum_ext _ (fun v => if v =? p then a else 0%Q)); [rewrite Qsum_one; [change (inject_Z (Z.of_nat 0)) with 0%Q; change (inject_Z (Z.of_nat 0 + 1)) with 1%Q; setoid_replace (1 * a + (0 * 1 / 2) * R_E)%Q with a by field; apply Qle_refl|apply NoDup_zrange|apply in_zrange; exact Hp]|]. intros v Hv. apply in_zrange in Hv. rewrite (proj1 (at_start S n v Ek Hv)). reflexivity.
    - destruct (earlier k S n Ek) as (S1 & n1 & E1). destruct (Hst k S1 n1 S n E1 Ek) as [(Hstay & _) Hfl]. specialize (IH S1 n1 E1).
      assert (Hsrc : forall v, sources (w * h) (has_edge n) v = [] -> forall u, has_edge n1 u v = false).
      { intros v Es u. destruct (has_edge n1 u v) eqn:Eu; [|reflexivity]. exfalso. apply Hstay in Eu. destruct (H3 _ _ _ Ek) as [(es & Hgr) _]. pose proof Hgr as (HRn & _ & (_ & Hsane & _)). destruct (Hsane u v (proj1 (has_edge_in _ _ _ _ _ HRn) Eu)) as (Hur & _).
        assert (Hin : In u (sources (w * h) (has_edge n) v)) by (apply filter_In; split; [apply in_zrange; rewrite Z.mul_comm; exact Hur|exact Eu]). rewrite Es in Hin. destruct Hin. }
      destruct (nth_error hs 0) as [[S0 n0]|] eqn:E0; [|discriminate H0]. 
      assert (Hdead : forall v, 0 <= v < w * h -> v <> p -> sources (w * h) (has_edge n) v = [] -> (amount S1 v == 0)%Q).
      { intros v Hv Hne Es. specialize (Hnn k S1 n1 v E1 Hv). destruct (Qlt_le_dec 0 (amount S1 v)) as [Hpos|Hle]; [|lra]. exfalso. destruct (Hal 0%nat k S0 n0 S1 n1 ltac:(lia) E0 E1) as [_ Hal']. apply (Hal' v Hv) in Hpos. destruct Hpos as [Ha|(_ & u & Hu)].
        - unfold alive in Ha. rewrite (proj1 (at_start S0 n0 v E0 Hv)), (proj2 (Z.eqb_neq v p) Hne) in Ha. lra.
        - rewrite (Hsrc v Es u) in Hu. discriminate Hu. }
      pose proof (step_total (w * h) p (has_edge n) R_E (layer_at [] ic) S1 S Hp HR Hfl (fun v Hv => Hnn k S1 n1 v E1 Hv) lone_layer Hdead) as Hstep.
      assert (Hk0 : (0 <= inject_Z (Z.of_nat k))%Q) by (change 0%Q with (inject_Z 0); rewrite <- Zle_Qle; lia). assert (Ha0 : (0 < a)%Q) by apply Hic. assert (Hkr : (0 <= inject_Z (Z.of_nat k) * R_E)%Q) by (apply Qmult_le_0_compat; assumption).
      assert (Hkeep : ((match sources (w * h) (has_edge n) p with [] => amount S1 p | _ => 0 end) <= a + inject_Z (Z.of_nat k) * R_E)%Q).
      { destruct (sources (w * h) (has_edge n) p) as [|x l] eqn:Es; [rewrite (C129_first k S1 n1 E1 (Hsrc p Es)); apply Qle_refl|lra]. }
      eapply Qle_trans; [exact Hstep|]. rewrite Nat2Z.inj_succ, <- Z.add_1_l, !inject_Z_plus. rewrite inject_Z_plus in IH. change (inject_Z 1) with 1%Q in *. set (q := inject_Z (Z.of_nat k)) in *.
      setoid_replace ((1 + q + 1) * a + ((1 + q) * (1 + q + 1) / 2) * R_E)%Q with (((q + 1) * a + (q * (q + 1) / 2) * R_E) + (a + q * R_E) + R_E)%Q by field. lra.
  Qed.
End Runs.
Print Assumptions C129_spread.
Print Assumptions C129_first.
Print Assumptions C129_total.

(** ** the script *)
Lemma simple2d_lone R_E w h : 0 < R_E -> 0 < w -> 0 < h -> exists l, init_simple2d w h R_E = Ok l /\ lone (w * h) (w / 2 * h + h / 2) (inject_Z R_E) (map inject_Z l).
Proof.
  intros HR Hw Hh. destruct (C64_init_simple2d w h R_E Hw Hh) as (l & El & Hl & Hn). exists l. split; [exact El|].
  assert (Hw2 : 0 <= w / 2 < w) by (split; [apply Z.div_pos; lia|apply Z.div_lt_upper_bound; lia]).
  assert (Hh2 : 0 <= h / 2 < h) by (split; [apply Z.div_pos; lia|apply Z.div_lt_upper_bound; lia]).
  split; [nia|]. split; [change 0%Q with (inject_Z 0); rewrite <- Zlt_Qlt; exact HR|]. split; [rewrite map_length; exact Hl|]. intros v Hv.
  assert (Hd : 0 <= v / h < w) by (split; [apply Z.div_pos; lia|apply Z.div_lt_upper_bound; lia]). assert (Hm : 0 <= v mod h < h) by (apply Z.mod_pos_bound; exact Hh). assert (Ev : v = v / h * h + v mod h) by (pose proof (Z.div_mod v h ltac:(lia)); lia).
  pose proof (Hn (v / h) (v mod h) Hd Hm) as E. rewrite <- Ev in E. rewrite (map_nth_error inject_Z _ _ E). f_equal.
  destruct (Z.eqb_spec v (w / 2 * h + h / 2)) as [Hq|Hq].
  - assert (H1 : v / h = w / 2) by (rewrite Hq, Z.div_add_l, (Z.div_small (h / 2) h) by lia; lia). assert (H2 : v mod h = h / 2) by lia. rewrite H1, H2, !Z.eqb_refl. reflexivity.
  - destruct (Z.eqb_spec (v / h) (w / 2)) as [H1|]; [|reflexivity]. destruct (Z.eqb_spec (v mod h) (h / 2)) as [H2|]; [|reflexivity]. exfalso. apply Hq. rewrite Ev, H1, H2. reflexivity.
Qed.

(** whatever the draws and the order of the links are, the script ends; the colony stays within k steps of the first agent, which stays alive, and has at most
    1 + 2 + ... + (k + 1) times R_E. With persist_network False no network is kept after the first. *)
Theorem C129_script : forall {BA BN I} (W : env Z Q Q BA BN) fuel set_order rand R_E T w h persist, (forall i, e_lab W i = Z.of_nat i) -> (forall l, any_order l (set_order l)) ->
  0 < R_E -> 0 < w -> 0 < h -> 1 <= T -> (Z.to_nat T <= fuel)%nat ->
  exists traj, fungal_growth_demo (I := I) W fuel set_order rand R_E T w h persist = Ok traj /\ Z.of_nat (length traj) = T /\
    forall k s, nth_error traj k = Some s -> exists S, activities W s = Ok (Some S) /\ alive S (w / 2 * h + h / 2) /\
      (forall v, 0 <= v < w * h -> alive S v -> reached h w (w / 2 * h + h / 2) k v) /\
      (total_amount (w * h) S <= inject_Z ((Z.of_nat k + 1) * (Z.of_nat k + 2)) / 2 * inject_Z R_E)%Q /\
      (persist = false -> (0 < k)%nat -> state_network W s = Ok None).
Proof.
  intros BA BN I W fuel set_order rand R_E T w h persist Wlab Hso HR Hw Hh HT Hf. destruct (simple2d_lone R_E w h HR Hw Hh) as (l & El & Hlone). set (p := w / 2 * h + h / 2) in *. set (ic := map inject_Z l) in *. set (q := inject_Z R_E) in *.
  assert (Hset : fungal_setup w h ic []) by (destruct Hlone as (_ & _ & Hl & _); unfold fungal_setup; auto).
  destruct (C55_runs (I := I) W Wlab set_order q w h ic [] Hso Hset) as (o & Eo & Ho).
  assert (Hg : topo_first (fungal_demo_args (I := I) o rand true) (activity_rule o) (Fungal.topology_rule o rand)) by (unfold topo_first, fungal_demo_args; cbn; repeat split).
  destruct (Ho rand fuel 0%nat _ T HT Hf Hg) as (uf & traj & hs & E & Hlen & Hrec).
  assert (Hhist : fungal_history W (I := I) q w h ic [] T hs). { exists set_order, rand, o, fuel, 0%nat, (fungal_demo_args o rand true), uf, traj. auto 8. }
  assert (Hq : (0 <= q)%Q) by (unfold q; change 0%Q with (inject_Z 0); rewrite <- Zle_Qle; lia).
  pose proof (C26_persistence_only_blanks W fuel 0%nat (f_net o) (Some (CList ic)) (Some T) None (fungal_demo_args (I := I) o rand persist) true persist eq_refl (or_introl eq_refl)) as Hb.
  change (set_persist (fungal_demo_args (I := I) o rand persist) true persist) with (fungal_demo_args (I := I) o rand persist) in Hb. change (set_persist (fungal_demo_args (I := I) o rand persist) true true) with (fungal_demo_args (I := I) o rand true) in Hb. rewrite E in Hb. cbn [rbind] in Hb.
  exists (blanked true persist traj). split; [unfold fungal_growth_demo; rewrite El; cbn [rbind]; fold ic; fold q; rewrite Eo; cbn [rbind]; rewrite Hb; reflexivity|].
  assert (Hl2 : length traj = length hs) by (clear - Hrec; induction Hrec; cbn; congruence). split; [rewrite <- Hlen, <- Hl2; destruct traj; cbn [blanked length]; [reflexivity|rewrite map_length; reflexivity]|].
  intros k s Es.
  assert (Hs : exists s0, nth_error traj k = Some s0 /\ activities W s = activities W s0 /\ (persist = false -> (0 < k)%nat -> state_network W s = Ok None)).
  { destruct traj as [|s1 ss]; [destruct k; discriminate Es|]. cbn [blanked] in Es. destruct k as [|k]; cbn [nth_error] in *; [exists s1; split; [reflexivity|]; injection Es as <-; split; [reflexivity|lia]|].
    rewrite nth_error_map in Es. destruct (nth_error ss k) as [s0|]; [|discriminate Es]. exists s0. split; [reflexivity|]. injection Es as <-. split; [reflexivity|]. intros -> _. reflexivity. }
  destruct Hs as (s0 & Es0 & Hact & Hnet).
  assert (Hh0 : exists S n, nth_error hs k = Some (S, n) /\ activities W s0 = Ok (Some S)).
  { clear - Hrec Es0. revert k Es0. induction Hrec as [|x [S n] tr hs [H1 _] _ IH]; intros k Es0; [destruct k; discriminate Es0|]. destruct k as [|k]; [injection Es0 as <-; exists S, n; auto|exact (IH k Es0)]. }
  destruct Hh0 as (S & n & Ek & Ha). exists S. split; [rewrite Hact; exact Ha|]. assert (Hp : 0 <= p < w * h) by apply Hlone.
  split.
  - assert (Hnnic : Forall (Qle 0) ic) by (eapply lone_nonneg; exact Hlone).
    destruct (C69_alive W Wlab _ _ _ _ _ _ _ Hset Hhist Hq Hnnic ltac:(constructor)) as [_ Hal]. destruct (history_spec W Wlab _ _ _ _ _ _ _ Hset Hhist) as (_ & H0 & _).
    destruct (nth_error hs 0) as [[S0 n0]|] eqn:E0; [|discriminate H0]. apply (proj2 (proj2 (Hal 0%nat k S0 n0 S n (Nat.le_0_l k) E0 Ek) p Hp)). left. unfold alive. assert (Hst : amount S0 p = (if p =? p then inject_Z R_E else 0%Q) /\ forall u x, has_edge n0 u x = false) by exact (at_start W Wlab q (inject_Z R_E) w h p T ic hs Hw Hh Hlone Hhist S0 n0 p E0 Hp). rewrite (proj1 Hst), Z.eqb_refl. apply Hlone.
  - split; [intros v Hv Hv'; exact (C129_spread W Wlab q (inject_Z R_E) w h p T ic hs Hw Hh Hq Hlone Hhist k S n v Ek Hv Hv')|]. split; [|exact Hnet].
    eapply Qle_trans; [exact (C129_total W Wlab q (inject_Z R_E) w h p T ic hs Hw Hh Hq Hlone Hhist k S n Ek)|]. fold q. rewrite inject_Z_mult, !inject_Z_plus. change (inject_Z 1) with 1%Q. change (inject_Z 2) with 2%Q. set (m := inject_Z (Z.of_nat k)). setoid_replace ((m + 1) * (m + 2) / 2 * q)%Q with ((m + 1) * q + m * (m + 1) / 2 * q)%Q by field. apply Qle_refl.
Qed.
Print Assumptions C129_script.

(** ** on the 3 x 2 torus *)
Lemma lone32 : lone 6 0 2 ic32.
Proof.
  split; [lia|]. split; [reflexivity|]. split; [reflexivity|]. intros v Hv. assert (Hc : v = 0 \/ v = 1 \/ v = 2 \/ v = 3 \/ v = 4 \/ v = 5) by lia. repeat (destruct Hc as [->|Hc]; [reflexivity|]). subst v. reflexivity.
Qed.
(** the hypotheses are met; after one step the bound on the total is reached, the agent 4, which is two cells away, is still dead, and no link leads to the first agent *)
Example C129_nonvacuous : exists hs S n, lone (3 * 2) 0 2 ic32 /\ (0 <= 1 # 2)%Q /\ fungal_history Wf (I := Z) (1 # 2) 3 2 ic32 [] 2 hs /\ nth_error hs 1 = Some (S, n) /\
  (total_amount 6 S == 2 * 2 + 1 * (1 # 2))%Q /\ alive S 1 /\ ~ alive S 4 /\ (forall u, 0 <= u < 6 -> has_edge n u 0 = false) /\ (amount S 0 == 2 + 1 * (1 # 2))%Q.
Proof.
  exists (seen32 (1 # 2) 2). destruct (nth_error (seen32 (1 # 2) 2) 1) as [[S n]|] eqn:E; [|vm_compute in E; discriminate]. exists S, n. split; [exact lone32|]. split; [discriminate|]. split; [apply history32; lia|]. split; [reflexivity|].
  vm_compute in E. injection E as <- <-. split; [vm_compute; reflexivity|]. split; [vm_compute; reflexivity|]. split; [unfold alive; vm_compute; discriminate|]. split; [|vm_compute; reflexivity].
  intros v Hv. assert (Hc : v = 0 \/ v = 1 \/ v = 2 \/ v = 3 \/ v = 4 \/ v = 5) by lia. repeat (destruct Hc as [->|Hc]; [vm_compute; reflexivity|]). subst v. vm_compute. reflexivity.
Qed.
(** nothing is absorbed, and still the total changes: what the first agent sends it also keeps *)
Theorem C129_conserved_refuted : exists hs S n S' n', lone (3 * 2) 0 2 ic32 /\ fungal_history Wf (I := Z) 0 3 2 ic32 [] 2 hs /\ nth_error hs 0 = Some (S, n) /\ nth_error hs 1 = Some (S', n') /\
  (total_amount 6 S == 2)%Q /\ (total_amount 6 S' == 4)%Q.
Proof.
  exists (seen32 0 2). destruct (nth_error (seen32 0 2) 0) as [[S n]|] eqn:E; [|vm_compute in E; discriminate]. destruct (nth_error (seen32 0 2) 1) as [[S' n']|] eqn:E'; [|vm_compute in E'; discriminate]. exists S, n, S', n'.
  split; [exact lone32|]. split; [apply history32; lia|]. split; [reflexivity|]. split; [reflexivity|]. vm_compute in E, E'. injection E as <- <-. injection E' as <- <-. split; vm_compute; reflexivity.
Qed.
Print Assumptions C129_conserved_refuted.
(** the script on a 3 x 2 torus, every draw 0: the agent 1 * 2 + 1 is the first, and its three neighbours get a third each *)
Example C129_script_nonvacuous : (forall i, e_lab Wf i = Z.of_nat i) /\ (forall l, any_order l l) /\
  match fungal_growth_demo (I := Z) Wf 2 (fun l => l) (fun _ => 0%Q) 6 2 3 2 false with
  | Ok traj => map (fun s => match activities Wf s, state_network Wf s with Ok (Some A), Ok n => (map (fun p => Qred (snd p)) A, match n with None => true | _ => false end) | _, _ => ([], false) end) traj
  | Err _ => []
  end = [([0; 0; 0; 6; 0; 0]%Q, false); ([2; 0; 0; 12; 2; 2]%Q, true)].
Proof. split; [reflexivity|]. split; [exact any_order_refl|]. vm_compute. reflexivity. Qed.
