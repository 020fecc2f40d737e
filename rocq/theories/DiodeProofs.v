(** * Electrons on thick wires: they go round for ever, or end at the diode *)
From Verif Require Import Py PyFacts ListFacts Network Topology TopologySpec TopologyProofs TopologyProofs2 Evolve EvolveSpec EvolveProofs EvolveStatic CaSpec CaRun CaNets Rules FredkinProofs PropWire DiodeSpec.
Open Scope string_scope.
Open Scope list_scope.
Open Scope Z_scope.

Section Thick.
  Context (nb : Z -> list Z) (s : Z -> Z) (cells : Z -> Prop) (m : Z) (pos : Z -> Z) (wire : Z -> Prop).
  Hypothesis Hw : thick_wire cells nb s m pos wire.
  Notation st k := (ca_state nb (fun _ => wire_next) k s).

  (** a front: a state of the places in which the cell behind a head is a tail *)
  Definition front (g : Z -> Z) : Prop :=
    forall i, 0 <= i < m -> (g i = 1 \/ g i = 2 \/ g i = 3) /\ (g ((i + 1) mod m) = 1 -> g i = 2).

  Lemma next_place i : 0 <= i < m -> ((i - 1) mod m + 1) mod m = i.
  Proof. intros Hi. destruct Hw as [Hm _]. rewrite Zplus_mod_idemp_l. replace (i - 1 + 1) with i by lia. apply Z.mod_small. assumption. Qed.

  Lemma heads k g v : front g -> wire v -> (forall x, wire x -> st k x = g (pos x)) -> g (pos v) = 3 ->
    count (map (st k) (nb v)) 1 = if g ((pos v - 1) mod m) =? 1 then behind nb s m pos v else 0%nat.
  Proof.
    intros Hf Hv Hg E. destruct Hw as [Hm Hall]. destruct (Hall v Hv) as (_ & Hp & Hnear). rewrite count_filter.
    destruct (Hf (pos v) Hp) as [_ Hnext].
    assert (Hhead : forall x, In x (nb v) -> st k x = 1 -> s x <> 0 /\ pos x = (pos v - 1) mod m /\ g ((pos v - 1) mod m) = 1).
    { intros x Hx Ex. assert (Hs : s x <> 0) by (intros H0; apply (empty_stays nb s k x) in H0; lia). destruct (Hnear x Hx Hs) as [Hwx [Ep|[Ep|Ep]]]; rewrite (Hg x Hwx), Ep in Ex; [lia|auto|]. apply Hnext in Ex. lia. }
    destruct (Z.eqb_spec (g ((pos v - 1) mod m)) 1) as [E1|E1].
    - unfold behind. f_equal. apply filter_ext_in. intros x Hx. destruct (Z.eqb_spec (st k x) 1) as [Ex|Ex].
      + destruct (Hhead x Hx Ex) as (H1 & H2 & _). rewrite H2, Z.eqb_refl, andb_true_r. destruct (Z.eqb_spec (s x) 0); [contradiction|reflexivity].
      + destruct (Z.eqb_spec (s x) 0) as [H0|H0]; [reflexivity|]. destruct (Z.eqb_spec (pos x) ((pos v - 1) mod m)) as [Ep|]; [|reflexivity]. exfalso. apply Ex. destruct (Hnear x Hx H0) as [Hwx _]. rewrite (Hg x Hwx), Ep. assumption.
    - destruct (filter _ (nb v)) as [|x l] eqn:El; [reflexivity|]. exfalso. assert (Hx : In x (x :: l)) by (left; reflexivity). rewrite <- El in Hx. apply filter_In in Hx. destruct Hx as [Hx Ex]. apply Z.eqb_eq in Ex. destruct (Hhead x Hx Ex) as (_ & _ & H1). contradiction.
  Qed.

  Lemma step_wire k g v : front g -> wire v -> (forall x, wire x -> st k x = g (pos x)) ->
    st (S k) v = if g (pos v) =? 1 then 2 else if g (pos v) =? 2 then 3 else if (g ((pos v - 1) mod m) =? 1) && ((behind nb s m pos v =? 1) || (behind nb s m pos v =? 2))%nat then 1 else 3.
  Proof.
    intros Hf Hv Hg. rewrite ca_state_S. unfold ca_next. rewrite (Hg v Hv). destruct Hw as [Hm Hall]. destruct (Hall v Hv) as (_ & Hp & _). destruct (Hf (pos v) Hp) as [[E|[E|E]] _]; rewrite E; [reflexivity|reflexivity|].
    rewrite wire_next_3, (heads k g v Hf Hv Hg E). cbn. destruct (g ((pos v - 1) mod m) =? 1); reflexivity.
  Qed.

  (** ** electrons on a wire that conducts go round for ever *)
  Lemma sig_mod (sig : Z -> Z) : 0 < m -> (forall i, sig (i + m) = sig i) -> forall i j, i mod m = j mod m -> sig i = sig j.
  Proof.
    intros Hm Hp. assert (Hr : forall q i, sig (i + q * m) = sig i).
    { assert (Hn : forall n i, sig (i + Z.of_nat n * m) = sig i) by (induction n as [|n IH]; intros i; [f_equal; lia|]; rewrite <- (IH i), <- (Hp (i + Z.of_nat n * m)); f_equal; lia).
      intros q i. destruct (Z.le_ge_cases 0 q); [rewrite <- (Z2Nat.id q) by lia; apply Hn|]. rewrite <- (Hn (Z.to_nat (- q)) (i + q * m)). f_equal. lia. }
    intros i j E. rewrite (Z.div_mod i m), (Z.div_mod j m), E by lia. rewrite (Z.add_comm (m * (i / m))), (Z.add_comm (m * (j / m))), (Z.mul_comm m (i / m)), (Z.mul_comm m (j / m)), !Hr. reflexivity.
  Qed.

  Lemma goes_round sig : conducts nb s m pos wire -> train m sig -> (forall v, wire v -> s v = sig (pos v)) -> forall k v, wire v -> st k v = sig (pos v - Z.of_nat k).
  Proof.
    intros Hc (Hper & Ht) H0. pose proof Hw as [Hm Hall]. induction k as [|k IH]; intros v Hv; [transitivity (s v); [reflexivity|]; rewrite H0 by assumption; f_equal; lia|].
    assert (Hmod : forall i, sig (i mod m - Z.of_nat k) = sig (i - Z.of_nat k)) by (intros i; apply sig_mod; [lia|assumption|apply Zminus_mod_idemp_l]).
    rewrite (step_wire k (fun i => sig (i - Z.of_nat k)) v); [|intros i Hi; rewrite Hmod; destruct (Ht (i - Z.of_nat k)) as (H1 & _); split; [assumption|]; intros E; destruct (Ht (i + 1 - Z.of_nat k)) as (_ & H2 & _); apply H2 in E; rewrite <- E; f_equal; lia|assumption|assumption].
    cbv beta. rewrite Hmod. set (j := pos v - Z.of_nat k). replace (pos v - 1 - Z.of_nat k) with (j - 1) by (unfold j; lia). replace (pos v - Z.of_nat (S k)) with (j - 1) by (unfold j; lia).
    destruct (Ht j) as (H1 & H2 & H3). destruct (Ht (j - 1)) as (H4 & _).
    destruct (Z.eqb_spec (sig j) 1) as [E|E]; [symmetry; apply H2; assumption|]. destruct (Z.eqb_spec (sig j) 2) as [E2|E2]; [symmetry; auto|].
    destruct (Z.eqb_spec (sig (j - 1)) 1) as [E1|E1]; cbn [andb].
    - rewrite E1. destruct (Hc v Hv) as [-> | ->]; reflexivity.
    - destruct H4 as [H4|[H4|H4]]; [contradiction|apply H2 in H4; contradiction|congruence].
  Qed.

  (** ** electrons on a wire that blocks end at the block *)
  Lemma ends sig : blocks nb s m pos wire -> train m sig -> sig 0 <> 1 -> (forall v, wire v -> s v = sig (pos v)) -> forall k v, wire v -> st k v = if Z.of_nat k <=? pos v then sig (pos v - Z.of_nat k) else 3.
  Proof.
    intros Hb (Hper & Ht) Hz H0. pose proof Hw as [Hm Hall]. induction k as [|k IH]; intros v Hv; pose proof (Hall v Hv) as (_ & Hp & _).
    - destruct (Z.leb_spec (Z.of_nat 0) (pos v)); [|lia]. transitivity (s v); [reflexivity|]. rewrite H0 by assumption. f_equal. lia.
    - set (g := fun i => if Z.of_nat k <=? i then sig (i - Z.of_nat k) else 3).
      assert (Hf : front g).
      { intros i Hi. unfold g. split; [destruct (Z.leb_spec (Z.of_nat k) i); [apply Ht|auto]|]. destruct (Z.eq_dec i (m - 1)) as [->|Hne].
        - replace (m - 1 + 1) with m by lia. rewrite Z.mod_same by lia. destruct (Z.leb_spec (Z.of_nat k) 0); [|lia]. replace (0 - Z.of_nat k) with 0 by lia. intros E; contradiction.
        - rewrite Z.mod_small by lia. destruct (Z.leb_spec (Z.of_nat k) (i + 1)) as [H|H]; [|lia]. intros E. destruct (Z.leb_spec (Z.of_nat k) i) as [H'|H'].
          + destruct (Ht (i + 1 - Z.of_nat k)) as (_ & H2 & _). apply H2 in E. rewrite <- E. f_equal. lia.
          + replace (i + 1 - Z.of_nat k) with 0 in E by lia. contradiction. }
      rewrite (step_wire k g v Hf Hv IH). specialize (Hb v Hv). unfold g. destruct (Z.eqb_spec (pos v) 0) as [E0|E0].
      + replace ((behind nb s m pos v =? 1)%nat || (behind nb s m pos v =? 2)%nat) with false by (destruct (behind nb s m pos v) as [|[|[|n]]]; [reflexivity|lia|lia|reflexivity]). rewrite andb_false_r.
        rewrite E0. destruct (Z.leb_spec (Z.of_nat (S k)) 0); [lia|]. destruct (Z.leb_spec (Z.of_nat k) 0); [|reflexivity]. replace (0 - Z.of_nat k) with 0 by lia. destruct (Z.eqb_spec (sig 0) 1); [contradiction|]. destruct (_ =? 2); reflexivity.
      + rewrite (Z.mod_small (pos v - 1)) by lia. replace ((behind nb s m pos v =? 1)%nat || (behind nb s m pos v =? 2)%nat) with true by (destruct Hb as [-> | ->]; reflexivity). rewrite andb_true_r.
        set (j := pos v - Z.of_nat k). replace (pos v - 1 - Z.of_nat k) with (j - 1) by (unfold j; lia). replace (pos v - Z.of_nat (S k)) with (j - 1) by (unfold j; lia).
        destruct (Ht j) as (H1 & H2 & H3). destruct (Ht (j - 1)) as (H4 & _).
        destruct (Z.leb_spec (Z.of_nat k) (pos v)) as [L|L].
        * destruct (Z.leb_spec (Z.of_nat (S k)) (pos v)) as [L'|L'].
          -- destruct (Z.leb_spec (Z.of_nat k) (pos v - 1)); [|lia]. destruct (Z.eqb_spec (sig j) 1) as [E|E]; [symmetry; apply H2; assumption|]. destruct (Z.eqb_spec (sig j) 2) as [E2|E2]; [symmetry; auto|].
             destruct (Z.eqb_spec (sig (j - 1)) 1) as [E1|E1]; [congruence|]. destruct H4 as [H4|[H4|H4]]; [contradiction|apply H2 in H4; contradiction|congruence].
          -- assert (j = 0) by (unfold j; lia). destruct (Z.eqb_spec (sig j) 1) as [E|E]; [exfalso; congruence|]. destruct (sig j =? 2); [reflexivity|]. destruct (Z.leb_spec (Z.of_nat k) (pos v - 1)); [lia|]. reflexivity.
        * destruct (Z.leb_spec (Z.of_nat (S k)) (pos v)); [lia|]. destruct (Z.leb_spec (Z.of_nat k) (pos v - 1)); [lia|]. reflexivity.
  Qed.
End Thick.

(** ** the diode on a rolled-up grid *)
Definition eight : list (Z * Z) := [(-1, -1); (-1, 0); (-1, 1); (0, -1); (0, 1); (1, -1); (1, 0); (1, 1)].
Lemma NoDup_eight : NoDup eight.
Proof. repeat constructor; cbn [In]; intros H; repeat destruct H as [H|H]; try discriminate H; exact H. Qed.
Lemma in_eight dx dy : In (dx, dy) eight <-> offset_of "Moore" 1 dx dy /\ (dx, dy) <> (0, 0).
Proof.
  unfold eight, offset_of, moore_offset. cbn [String.eqb Ascii.eqb Bool.eqb In]. split.
  - intros H. repeat destruct H as [H|H]; try contradiction; injection H as <- <-; (split; [lia|congruence]).
  - intros [[H1 H2] Hne]. assert (Hx : dx = -1 \/ dx = 0 \/ dx = 1) by lia. assert (Hy : dy = -1 \/ dy = 0 \/ dy = 1) by lia.
    destruct Hx as [->|[-> | ->]], Hy as [->|[-> | ->]]; tauto || (exfalso; apply Hne; reflexivity).
Qed.

Lemma filter_same_length {X} (q : X -> bool) l l' : Permutation l l' -> length (filter q l) = length (filter q l').
Proof. induction 1 as [|x l l' _ IH|x y l|l1 l2 l3 _ IH1 _ IH2]; cbn [filter]; [reflexivity|destruct (q x); cbn [length]; congruence|destruct (q x), (q y); reflexivity|congruence]. Qed.

Section Board.
  Variables (rows cols a p : Z) (f : Z -> list Z) (s : Z -> Z).
  Hypotheses (Hrows : 3 <= rows) (Hcols : 3 <= cols).
  Hypothesis Hnd : forall v, 0 <= v < rows * cols -> NoDup (f v).
  Hypothesis Hub : forall v w, 0 <= v < rows * cols -> In w (f v) -> 0 <= w < rows * cols.
  Hypothesis Hin : forall a b c d, 0 <= a < rows -> 0 <= b < cols -> 0 <= c < rows -> 0 <= d < cols ->
    (In (c * cols + d) (f (a * cols + b)) <-> torus_step rows cols (offset_of "Moore" 1) a b c d).
  Notation near := (near rows cols a p).

  Lemma near_bound dx dy : 0 <= near dx dy < rows * cols.
  Proof. unfold DiodeSpec.near. pose proof (Z.mod_pos_bound (a + dx) rows ltac:(lia)). pose proof (Z.mod_pos_bound (p + dy) cols ltac:(lia)). nia. Qed.

  Lemma near_nbrs dx dy : Permutation (f (near dx dy)) (map (fun e => near (dx + fst e) (dy + snd e)) ((0, 0) :: eight)).
  Proof.
    unfold DiodeSpec.near. rewrite (torus_perm rows cols 1 "Moore" f eight ltac:(lia) ltac:(lia) ltac:(lia) Hnd Hub Hin NoDup_eight in_eight) by (apply Z.mod_pos_bound; lia).
    match goal with |- Permutation ?x ?y => replace x with y; [reflexivity|] end. apply map_ext. intros e. rewrite !Zplus_mod_idemp_l, !Z.add_assoc. reflexivity.
  Qed.

  Definition place_of (c v : Z) : Z := (v mod cols - p - c) mod cols.
  Lemma place_near c dx dy : place_of c (near dx dy) = (dy - c) mod cols.
  Proof.
    unfold place_of, DiodeSpec.near. rewrite (Z.add_comm (_ * cols)), Z_mod_plus_full, Z.mod_mod by lia. rewrite <- Z.sub_add_distr, Zminus_mod_idemp_l. f_equal. lia.
  Qed.

  Definition diode_cell (right : bool) (v : Z) : Prop := exists dx dy, -1 <= dx <= 1 /\ v = near dx dy /\ diode right cols dx dy = true.

  Lemma dy_places c dy e : -1 <= e <= 1 -> ((dy + e - c) mod cols = ((dy - c) mod cols - 1) mod cols <-> e = -1).
  Proof.
    intros He. rewrite Zminus_mod_idemp_l. split; [|intros ->; f_equal; lia]. intros E. replace (dy + e - c) with (dy - c + e) in E by lia. replace (dy - c - 1) with (dy - c + -1) in E by lia. apply mod_near in E; lia.
  Qed.

  Lemma diode_wire right c : has_diode right rows cols a p s -> thick_wire (fun v => 0 <= v < rows * cols) f s cols (place_of c) (diode_cell right).
  Proof.
    intros Hd. split; [assumption|]. intros v (dx & dy & Hdx & -> & Hv). split; [apply near_bound|]. split; [rewrite place_near; apply Z.mod_pos_bound; lia|].
    intros x Hx Hs. apply (Permutation_in _ (near_nbrs dx dy)), in_map_iff in Hx. destruct Hx as (e & <- & He).
    assert (Hes : -1 <= fst e <= 1 /\ -1 <= snd e <= 1) by (destruct He as [<-|He]; [cbn; lia|]; destruct e as [e1 e2]; apply in_eight in He; destruct He as [He _]; unfold offset_of, moore_offset in He; cbn [String.eqb Ascii.eqb Bool.eqb fst snd] in *; lia).
    apply Hd in Hs; [|lia]. split.
    - exists (dx + fst e), (dy + snd e). split; [|auto]. unfold diode in Hs. destruct (Z.eqb_spec (dx + fst e) 0); [lia|]. cbn [andb orb] in Hs. destruct (Z.eqb_spec (Z.abs (dx + fst e)) 1); [lia|discriminate].
    - rewrite !place_near. rewrite Zminus_mod_idemp_l, Zplus_mod_idemp_l. assert (Hsn : snd e = 0 \/ snd e = -1 \/ snd e = 1) by lia. destruct Hsn as [E|[E|E]]; rewrite E; [left|right; left|right; right]; f_equal; lia.
  Qed.

  Lemma behind_diode right c dx dy : has_diode right rows cols a p s -> -1 <= dx <= 1 ->
    behind f s cols (place_of c) (near dx dy) =
      ((if diode right cols (dx - 1) (dy - 1) then 1 else 0) + (if diode right cols dx (dy - 1) then 1 else 0) + (if diode right cols (dx + 1) (dy - 1) then 1 else 0))%nat.
  Proof.
    intros Hd Hdx. unfold behind. rewrite (filter_same_length _ _ _ (near_nbrs dx dy)). rewrite place_near.
    assert (Hc : forall e1 e2, -1 <= e1 <= 1 -> -1 <= e2 <= 1 -> negb (s (near (dx + e1) (dy + e2)) =? 0) && (place_of c (near (dx + e1) (dy + e2)) =? ((dy - c) mod cols - 1) mod cols) = diode right cols (dx + e1) (dy + e2) && (e2 =? -1)).
    { intros e1 e2 H1 H2. rewrite place_near. f_equal.
      - pose proof (Hd (dx + e1) (dy + e2) ltac:(lia)) as Hs. destruct (Z.eqb_spec (s (near (dx + e1) (dy + e2))) 0), (diode right cols (dx + e1) (dy + e2)); cbn [negb]; try reflexivity; exfalso; intuition congruence.
      - pose proof (dy_places c dy e2 H2) as Hp. destruct (Z.eqb_spec ((dy + e2 - c) mod cols) (((dy - c) mod cols - 1) mod cols)), (Z.eqb_spec e2 (-1)); try reflexivity; exfalso; intuition. }
    unfold eight. cbn [map fst snd filter]. rewrite !Hc by lia. cbn [Z.eqb Pos.eqb]. rewrite !andb_false_r, !andb_true_r, Z.add_0_r. replace (dx + -1) with (dx - 1) by lia. replace (dy + -1) with (dy - 1) by lia.
    destruct (diode right cols (dx - 1) (dy - 1)), (diode right cols dx (dy - 1)), (diode right cols (dx + 1) (dy - 1)); reflexivity.
  Qed.

  Lemma shift_mod dy c : 0 <= c < cols -> ((dy - 1) mod cols = c <-> dy mod cols = (c + 1) mod cols).
  Proof.
    intros Hc. split.
    - intros <-. rewrite Zplus_mod_idemp_l. f_equal. lia.
    - intros E. rewrite <- Zminus_mod_idemp_l, E, Zminus_mod_idemp_l. replace (c + 1 - 1) with c by lia. apply Z.mod_small. assumption.
  Qed.

  Lemma diode_conducts : has_diode true rows cols a p s -> conducts f s cols (place_of 0) (diode_cell true).
  Proof.
    intros Hd v (dx & dy & Hdx & -> & Hv). rewrite (behind_diode true 0 dx dy Hd Hdx). unfold diode in *.
    pose proof (shift_mod dy 0 ltac:(lia)) as H0. pose proof (shift_mod dy (cols - 1) ltac:(lia)) as H1. rewrite (Z.mod_small (0 + 1)) in H0 by lia. replace (cols - 1 + 1) with cols in H1 by lia. rewrite Z.mod_same in H1 by lia.
    pose proof (Z.mod_pos_bound dy cols ltac:(lia)).
    assert (Hx : dx = -1 \/ dx = 0 \/ dx = 1) by lia. destruct Hx as [->|[-> | ->]]; cbn [Z.sub Z.add Z.opp Z.pos_sub Pos.sub Z.abs Z.eqb Pos.eqb andb orb] in *;
      repeat match goal with |- context [?x =? ?y] => destruct (Z.eqb_spec x y) | H : context [?x =? ?y] |- _ => destruct (Z.eqb_spec x y) end; cbn [negb andb orb] in *; try discriminate; try lia; cbn; auto.
  Qed.

  Lemma diode_blocks : has_diode false rows cols a p s -> blocks f s cols (place_of 2) (diode_cell false).
  Proof.
    intros Hd v (dx & dy & Hdx & -> & Hv). rewrite (behind_diode false 2 dx dy Hd Hdx), place_near. unfold diode in *.
    pose proof (shift_mod dy 0 ltac:(lia)) as H0. pose proof (shift_mod dy 1 ltac:(lia)) as H1. rewrite (Z.mod_small (0 + 1)) in H0 by lia.
    assert (Hp : (dy - 2) mod cols = 0 <-> dy mod cols = (1 + 1) mod cols).
    { rewrite <- H1. replace (dy - 2) with (dy - 1 - 1) by lia. rewrite (shift_mod (dy - 1) 0) by lia. rewrite (Z.mod_small (0 + 1)) by lia. reflexivity. }
    rewrite (Z.mod_small (1 + 1)) in * by lia. pose proof (Z.mod_pos_bound dy cols ltac:(lia)).
    assert (Hx : dx = -1 \/ dx = 0 \/ dx = 1) by lia. destruct Hx as [->|[-> | ->]]; cbn [Z.sub Z.add Z.opp Z.pos_sub Pos.sub Z.abs Z.eqb Pos.eqb andb orb] in *;
      repeat match goal with |- context [?x =? ?y] => destruct (Z.eqb_spec x y) | H : context [?x =? ?y] |- _ => destruct (Z.eqb_spec x y) end; cbn [negb andb orb] in *; try discriminate; try lia; cbn; auto.
  Qed.
End Board.
