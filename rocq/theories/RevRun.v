(** * Running ReversibleRule: the trajectory is the orbit of a second-order automaton; facts about such orbits *)
From Verif Require Import Py PyFacts ListFacts Network Topology TopologySpec Evolve EvolveSpec EvolveProofs EvolveStatic Async ReversibleProofs CaSpec CaRun CaNets RevSpec.
Open Scope string_scope.
Open Scope list_scope.
Open Scope Z_scope.

Section Orbits.
  Context {L : Type} (nb : L -> list L) (D : L -> Prop).
  Hypothesis HD : forall v w, D v -> In w (nb v) -> D w.
  Notation "a == b" := (forall v, D v -> a v = b v) (at level 70, no associativity).

  Lemma orbit_fst f p s k : fst (orbit nb f p s k) = so_from nb f p s k.
  Proof. destruct k as [|k]; [reflexivity|]. cbn [orbit so_from]. unfold so_state. destruct (orbit nb f p s k). reflexivity. Qed.
  Lemma so_next f p s k v : so_state nb f p s (S k) v = Z.lxor (f (Z.of_nat (S k)) v (so_state nb f p s k v) (map (so_state nb f p s k) (nb v))) (so_from nb f p s k v).
  Proof. unfold so_state at 1. cbn [orbit]. rewrite <- orbit_fst. unfold so_state. destruct (orbit nb f p s k) as [b n]. reflexivity. Qed.

  (** a sequence of states obeying the second-order law *)
  Definition law (f : Z -> L -> Z -> list Z -> Z) (b : nat -> L -> Z) : Prop :=
    forall k v, D v -> b (S (S k)) v = Z.lxor (f (Z.of_nat (S k)) v (b (S k) v) (map (b (S k)) (nb v))) (b k v).
  Lemma so_law f p s : law f (so_from nb f p s).
  Proof. intros k v _. cbn [so_from]. apply so_next. Qed.
  Lemma law_unique f b b' : law f b -> law f b' -> b 0%nat == b' 0%nat -> b 1%nat == b' 1%nat -> forall k, b k == b' k /\ b (S k) == b' (S k).
  Proof.
    intros Hb Hb' E0 E1. induction k as [|k [IH1 IH2]]; [auto|]. split; [exact IH2|]. intros v Hv. rewrite Hb, Hb' by exact Hv. rewrite (IH1 v Hv), (IH2 v Hv). f_equal. f_equal.
    apply map_ext_in. intros w Hw. apply IH2. eapply HD; eassumption.
  Qed.
  Lemma xor_back a b : Z.lxor a (Z.lxor a b) = b.
  Proof. rewrite <- Z.lxor_assoc, Z.lxor_nilpotent. reflexivity. Qed.
  (** two consecutive states determine the earlier ones *)
  Lemma law_back f b b' : law f b -> law f b' -> forall k, b k == b' k -> b (S k) == b' (S k) -> forall i, (i <= k)%nat -> b i == b' i.
  Proof.
    intros Hb Hb'. induction k as [|k IH]; intros E1 E2 i Hi; [replace i with 0%nat by lia; exact E1|].
    destruct (Nat.eq_dec i (S k)) as [->|Hne]; [exact E1|]. apply IH; [|exact E1|lia]. intros v Hv.
    pose proof (Hb k v Hv) as E. rewrite (E2 v Hv), (Hb' k v Hv), (E1 v Hv) in E.
    assert (Em : map (b (S k)) (nb v) = map (b' (S k)) (nb v)) by (apply map_ext_in; intros w Hw; apply E1; eapply HD; eassumption). rewrite Em in E.
    apply (f_equal (Z.lxor (f (Z.of_nat (S k)) v (b' (S k) v) (map (b' (S k)) (nb v))))) in E. rewrite !xor_back in E. symmetry. exact E.
  Qed.

  Context (f : L -> Z -> list Z -> Z).
  Lemma law_shift b i : law (always f) b -> law (always f) (fun k => b (i + k)%nat).
  Proof. intros Hb k v Hv. cbn beta. replace (i + S (S k))%nat with (S (S (i + k))) by lia. rewrite Hb by exact Hv. replace (i + S k)%nat with (S (i + k)) by lia. reflexivity. Qed.
  (** running backwards from two consecutive states *)
  Lemma law_reverse b b' m : law (always f) b -> law (always f) b' -> b' 0%nat == b (S m) -> b' 1%nat == b m -> forall j, (j <= S m)%nat -> b' j == b (S m - j)%nat.
  Proof.
    intros Hb Hb' E0 E1. assert (Hj : forall j, (j <= m)%nat -> b' j == b (S m - j)%nat /\ b' (S j) == b (m - j)%nat).
    { induction j as [|j IH]; intros Hj; [rewrite !Nat.sub_0_r; auto|]. destruct (IH ltac:(lia)) as [I1 I2]. split; [exact I2|]. intros v Hv. rewrite Hb' by exact Hv. unfold always.
      rewrite (I1 v Hv), (I2 v Hv). assert (Em : map (b' (S j)) (nb v) = map (b (m - j)%nat) (nb v)) by (apply map_ext_in; intros w Hw; apply I2; eapply HD; eassumption). rewrite Em.
      replace (S m - j)%nat with (S (S (m - S j))) by lia. rewrite Hb by exact Hv. unfold always. replace (S (m - S j)) with (m - j)%nat by lia. apply xor_back. }
    intros [|j] Hle; [rewrite Nat.sub_0_r; exact E0|]. apply (Hj j). lia.
  Qed.
  (** started with a past equal to the present, the orbit runs through the same states in both directions *)
  Lemma law_mirror b b' m : law (always f) b -> law (always f) b' -> b' 0%nat == b (S m) -> b' 1%nat == b m -> b 0%nat == b 1%nat -> forall j, b' (m + j)%nat == b j.
  Proof.
    intros Hb Hb' E0 E1 Es j. pose proof (law_reverse b b' m Hb Hb' E0 E1) as Hr.
    apply (law_unique (always f) (fun j => b' (m + j)%nat) b (law_shift b' m Hb') Hb).
    - intros v Hv. rewrite Nat.add_0_r. rewrite (Hr m ltac:(lia) v Hv). replace (S m - m)%nat with 1%nat by lia. symmetry. apply Es, Hv.
    - intros v Hv. rewrite Nat.add_1_r. rewrite (Hr (S m) ltac:(lia) v Hv), Nat.sub_diag. apply Es, Hv.
  Qed.
  (** an orbit that comes back to a pair of states is periodic from the start *)
  Lemma law_periodic b i j : law (always f) b -> (i < j)%nat -> b i == b j -> b (S i) == b (S j) -> forall k, b (k + (j - i))%nat == b k.
  Proof.
    intros Hb Hij Ei Ej k. set (P := (j - i)%nat). assert (Hs : law (always f) (fun k => b (P + k)%nat)) by (apply law_shift, Hb).
    assert (E0 : b 0%nat == b (P + 0)%nat /\ b 1%nat == b (P + 1)%nat).
    { destruct i as [|i].
      - unfold P. rewrite Nat.sub_0_r, Nat.add_0_r, Nat.add_1_r. auto.
      - pose proof (law_back (always f) b (fun k => b (P + k)%nat) Hb Hs (S i)) as Hback. cbn beta in Hback. unfold P in *. replace (j - S i + S i)%nat with j in Hback by lia.
        replace (j - S i + S (S i))%nat with (S j) in Hback by lia. specialize (Hback Ei Ej). split; apply Hback; lia. }
    destruct E0 as [E0 E1]. intros v Hv. rewrite Nat.add_comm. symmetry. apply (law_unique (always f) b (fun k => b (P + k)%nat) Hb Hs E0 E1 k); assumption.
  Qed.
End Orbits.

(** the orbit and its law stay inside [P] *)
Lemma so_inside {L} nb (D : L -> Prop) (P : Z -> Prop) f p s : (forall v w, D v -> In w (nb v) -> D w) -> (forall a b, P a -> P b -> P (Z.lxor a b)) ->
  (forall v, D v -> P (p v)) -> (forall v, D v -> P (s v)) ->
  (forall t v a l, D v -> P a -> Forall P l -> length l = length (nb v) -> P (f t v a l)) ->
  forall k v, D v -> P (so_from nb f p s k v) /\ P (so_state nb f p s k v).
Proof.
  intros HD Hx Hp Hs Hf. induction k as [|k IH]; intros v Hv; [split; [apply Hp, Hv|apply Hs, Hv]|]. split; [apply IH, Hv|]. rewrite so_next. apply Hx; [|apply IH, Hv].
  apply Hf; [exact Hv|apply IH, Hv| |apply map_length]. apply Forall_forall. intros a Ha. apply in_map_iff in Ha. destruct Ha as (w & <- & Hw). apply IH. eapply HD; eassumption.
Qed.

Section Run.
  Context {V U I BA BN : Type}.
  Context (W : env Z V Z BA BN).
  Notation network := (network Z V).
  Notation acts := (dict Z Z).
  Notation ctx := (node_ctx Z V Z I).
  Notation args := (@args Z V Z U I).

  Theorem second_order_run fuel (u0 : U) (n : network) m nb c pc T (g : args) (h : ctx -> res Z) f (P : Z -> Prop) (s p : Z -> Z) :
    lattice n m nb -> 0 < m -> static g (stateless (reversible_call h)) -> g_past g = [pc] -> 1 <= T -> (Z.to_nat T <= fuel)%nat -> Z.of_nat (length (to_dict W c)) = m ->
    shows_cells (fun v => 0 <= v < m) (to_dict W c) s -> shows_cells (fun v => 0 <= v < m) (to_dict W pc) p ->
    (forall v, 0 <= v < m -> P (s v)) -> (forall v, 0 <= v < m -> P (p v)) -> (forall a b, P a -> P b -> P (Z.lxor a b)) ->
    (forall t v a l, 0 <= v < m -> P a -> Forall P l -> length l = length (nb v) -> P (f t v a l)) ->
    (forall x, 0 <= x_label x < m -> P (x_cur x) -> Forall P (x_nacts x) -> length (x_nacts x) = length (nb (x_label x)) -> h x = Ok (f (x_time x) (x_label x) (x_cur x) (x_nacts x))) ->
    exists hs, runs W fuel u0 n c T g hs /\ nth_error hs 0 = Some (to_dict W c) /\
      (forall k S, nth_error hs (Datatypes.S k) = Some S -> map fst S = nodes n) /\
      forall k S, nth_error hs k = Some S -> shows_cells (fun v => 0 <= v < m) S (so_state nb f p s k).
  Proof.
    intros (Hnd & Hnodes & Hcl & Hlen & Hnb & Hub) Hm Hst Hpast HT Hf Hl Hs Hp Ps Pp Px Pf Hh. set (D := fun v => 0 <= v < m) in *.
    pose proof (so_inside nb D P f p s Hub Px Pp Ps Pf) as Pin.
    set (Inv := fun hs : list acts => forall k S, nth_error hs k = Some S -> shows_cells D S (so_state nb f p s k)).
    assert (Hctx : forall hist S v (x : ctx), Inv (hist ++ [S]) -> D v -> ctx_for W n S (Z.of_nat (length hist) + 1) (past_of W (g_past g) (hist ++ [S])) (InStr "__timestep__") v x ->
      reversible_call h x = Ok (so_state nb f p s (Datatypes.S (length hist)) v)).
    { intros hist S v x Hi Hv Hx. assert (HS : shows_cells D S (so_state nb f p s (length hist))) by (apply (Hi (length hist)); rewrite nth_error_app2, Nat.sub_diag by lia; reflexivity).
      destruct Hx as [Elab Etime _ Hn Hacts _ Hcur Epast _]. rewrite (nbrs_fun n v _ _ Hn (Hnb v Hv)) in Hacts.
      assert (Ena : x_nacts x = map (so_state nb f p s (length hist)) (nb v)) by (eapply nacts_map; [exact Hacts|exact HS|]; intros w Hw; eapply Hub; eassumption).
      assert (Ecur : x_cur x = so_state nb f p s (length hist) v) by (rewrite (HS v Hv) in Hcur; congruence).
      unfold reversible_call. rewrite Hh.
      - cbn [rbind]. rewrite Hpast in Epast. set (e := match rev hist with [] => to_dict W pc | P0 :: _ => P0 end).
        assert (He : shows_cells D e (so_from nb f p s (length hist))).
        { unfold e. destruct (rev hist) as [|P0 l] eqn:Er.
          - assert (hist = []) by (rewrite <- (rev_involutive hist), Er; reflexivity). subst hist. exact Hp.
          - assert (Eh : hist = rev l ++ [P0]) by (rewrite <- (rev_involutive hist), Er; reflexivity). rewrite Eh, app_length, Nat.add_1_r. cbn [length so_from].
            apply (Hi (length (rev l))). rewrite Eh, <- app_assoc. rewrite nth_error_app2, Nat.sub_diag by lia. reflexivity. }
        rewrite (past_entry_one W pc hist S x (x_label x) e Epast eq_refl).
        + rewrite Elab, (He v Hv). cbn [of_opt rbind]. f_equal. rewrite so_next, Ena, Ecur, Etime. do 2 f_equal. lia.
        + intros En. specialize (He 0 ltac:(unfold D; lia)). rewrite En in He. discriminate.
      - rewrite Elab. exact Hv.
      - rewrite Ecur. apply Pin, Hv.
      - rewrite Ena. apply Forall_forall. intros a Ha. apply in_map_iff in Ha. destruct Ha as (w & <- & Hw). apply Pin. eapply Hub; eassumption.
      - rewrite Ena, Elab. apply map_length. }
    destruct (stateless_run W fuel u0 n c T g (reversible_call h) Inv Hst Hnd HT Hf ltac:(lia) Hcl) as (uf & traj & hs & E & Hlh & Hshow & Hi & Hz & Hsyn).
    - intros v Hv. exists (s v). apply Hs, Hnodes, Hv.
    - intros [|k] S E; [injection E as <-; exact Hs|destruct k; discriminate].
    - intros hist S v x Hi Hv Hx. eexists. eapply Hctx; [exact Hi|apply Hnodes, Hv|exact Hx].
    - intros hist S S' Hi Hcov [_ Hu] k S1 E. destruct (lt_dec k (length (hist ++ [S]))) as [Hlt|Hge].
      + rewrite nth_error_app1 in E by exact Hlt. apply Hi, E.
      + rewrite nth_error_app2 in E by lia. destruct (k - length (hist ++ [S]))%nat as [|i] eqn:Ek; [|destruct i; discriminate]. injection E as <-.
        rewrite app_length in Ek, Hge. cbn [length] in Ek, Hge. assert (k = Datatypes.S (length hist)) by lia. subst k.
        intros v Hv. destruct (Hu v (proj2 (Hnodes v) Hv)) as (x & a & a' & Hx & Ea & -> & Ed). rewrite Ed. f_equal. rewrite (Hctx hist S v x Hi Hv Hx) in Ea. congruence.
    - exists hs. split; [exists uf, traj; split; [exact E|split; [exact Hlh|exact Hshow]]|]. split; [exact Hz|]. split; [|exact Hi].
      intros k S Ek. destruct (nth_error hs k) as [S0|] eqn:E0; [|apply nth_error_None in E0; assert (Datatypes.S k < length hs)%nat by (apply nth_error_Some; congruence); lia].
      apply (Hsyn k S0 S E0 Ek).
  Qed.
End Run.
