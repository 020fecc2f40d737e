(** Proofs about the triangle-replacement rule of demos/evolving_networks. *)
From Verif Require Import Py PyFacts ListFacts Network NetworkSpec NetworkProofs NetworkProofs2 NetworkProofs3 NetMult DemoNets.
Open Scope string_scope.
Open Scope list_scope.
Open Scope nat_scope.

Section Evolving.
  Context {V : Type}.
  Notation network := (network string V).
  Notation graph := (graph string V).
  Implicit Types (g : graph) (v w x y : string) (n : network).

  Definition both (g : graph) (i j : string) : graph := spec_add_edge (spec_add_edge g i j []) j i [].
  Definition hits x y i j : nat := hit x y i j + hit x y j i.
  Definition one x y : nat := if eqb x y then 1 else 0.

  Lemma mult_both g i j x y : mult (both g i j) x y = mult g x y + hits x y i j.
  Proof. unfold both, hits. rewrite !mult_add_edge. lia. Qed.

  (** the graph after node [v] with neighbours [x1; x2; x3] was replaced by the triangle [a], [b], [c] *)
  Definition replaced (g : graph) (v a b c x1 x2 x3 : string) : graph :=
    spec_remove_node (both (both (both (both (both (both g a b) a c) b c) c x1) b x2) a x3) v.

  Lemma both_other g i j v : i <> v -> j <> v -> in_neighbours (both g i j) v = in_neighbours g v.
  Proof. intros Hi Hj. unfold both. rewrite !in_neighbours_add; auto. Qed.
  Lemma both_nodes g i j v : is_node g v -> is_node (both g i j) v.
  Proof.
    intros Hv. unfold is_node in *. change (In v (labels (both g i j))). change (In v (labels g)) in Hv. unfold both. rewrite labels_add_edge, !labels_ensure, labels_add_edge, !labels_ensure.
    repeat match goal with |- context[if ?b then _ else _] => destruct b end; rewrite ?in_app_iff; auto.
  Qed.

  Lemma in_edges_keys n g v : R n g -> is_node g v -> exists inc, in_edges n v = Ok inc /\ dkeys inc = in_neighbours g v /\ length inc = length (in_neighbours g v).
  Proof.
    intros HR Hv. rewrite (in_edges_R n g v HR). apply is_nodeb_true in Hv. rewrite Hv. eexists. split; [reflexivity|]. rewrite map_length, dkeys_mapkey. auto.
  Qed.

  Definition tri v : list string := [(v ++ "a")%string; (v ++ "b")%string; (v ++ "c")%string].

  Lemma insert_triangle_R n g v x1 x2 x3 : R n g -> is_node g v -> in_neighbours g v = [x1; x2; x3] ->
    NoDup (v :: tri v) -> ~ In v [x1; x2; x3] ->
    exists n', insert_triangle v n = (n', Ok tt) /\ R n' (replaced g v (v ++ "a") (v ++ "b") (v ++ "c") x1 x2 x3) /\ net_rot n' = net_rot n.
  Proof.
    intros HR Hv Hn Hd Hx. unfold insert_triangle. cbv zeta. unfold tri in Hd. unfold replaced.
    set (a := (v ++ "a")%string) in *. set (b := (v ++ "b")%string) in *. set (c := (v ++ "c")%string) in *. clearbody a b c.
    assert (Ha : a <> v) by (intros ->; inversion Hd as [|? ? Hq]; apply Hq; left; reflexivity).
    assert (Hb : b <> v) by (intros ->; inversion Hd as [|? ? Hq]; apply Hq; right; left; reflexivity).
    assert (Hc : c <> v) by (intros ->; inversion Hd as [|? ? Hq]; apply Hq; right; right; left; reflexivity).
    assert (Hx1 : x1 <> v) by (intros ->; apply Hx; left; reflexivity).
    assert (Hx2 : x2 <> v) by (intros ->; apply Hx; right; left; reflexivity).
    assert (Hx3 : x3 <> v) by (intros ->; apply Hx; right; right; left; reflexivity).
    destruct (add_bidir_R n g a b HR) as (n1 & E1 & R1 & Q1). rewrite (mthen_ok _ _ _ _ E1). fold (both g a b) in R1.
    destruct (add_bidir_R n1 _ a c R1) as (n2 & E2 & R2 & Q2). rewrite (mthen_ok _ _ _ _ E2). fold (both (both g a b) a c) in R2.
    destruct (add_bidir_R n2 _ b c R2) as (n3 & E3 & R3 & Q3). rewrite (mthen_ok _ _ _ _ E3). fold (both (both (both g a b) a c) b c) in R3.
    set (g3 := both (both (both g a b) a c) b c) in *.
    assert (N3 : in_neighbours g3 v = [x1; x2; x3]) by (unfold g3; rewrite !both_other by assumption; assumption).
    assert (V3 : is_node g3 v) by (unfold g3; do 3 apply both_nodes; assumption).
    destruct (in_edges_keys n3 g3 v R3 V3) as (inc3 & I3 & K3 & S3). rewrite I3, S3, K3, N3. cbn [length].
    destruct (add_bidir_R n3 _ c x1 R3) as (n4 & E4 & R4 & Q4). fold (both g3 c x1) in R4. set (g4 := both g3 c x1) in *.
    assert (N4 : in_neighbours g4 v = [x1; x2; x3]) by (unfold g4; rewrite both_other by assumption; assumption).
    assert (V4 : is_node g4 v) by (apply both_nodes; assumption).
    destruct (in_edges_keys n4 g4 v R4 V4) as (inc4 & I4 & K4 & S4). rewrite N4 in S4. cbn [length] in S4.
    destruct (add_bidir_R n4 _ b x2 R4) as (n5 & E5 & R5 & Q5). fold (both g4 b x2) in R5. set (g5 := both g4 b x2) in *.
    assert (N5 : in_neighbours g5 v = [x1; x2; x3]) by (unfold g5; rewrite both_other by assumption; assumption).
    assert (V5 : is_node g5 v) by (apply both_nodes; assumption).
    destruct (in_edges_keys n5 g5 v R5 V5) as (inc5 & I5 & K5 & S5). rewrite N5 in S5. cbn [length] in S5.
    destruct (add_bidir_R n5 _ a x3 R5) as (n6 & E6 & R6 & Q6). fold (both g5 a x3) in R6. set (g6 := both g5 a x3) in *.
    assert (N6 : in_neighbours g6 v = [x1; x2; x3]) by (unfold g6; rewrite both_other by assumption; assumption).
    assert (V6 : is_node g6 v) by (apply both_nodes; assumption).
    destruct (in_edges_keys n6 g6 v R6 V6) as (inc6 & I6 & K6 & S6). rewrite N6 in S6. cbn [length] in S6.
    assert (Eat : attach v 3 [x1; x2; x3] [a; b; c] n3 = (n6, Ok tt)).
    { cbn [attach]. rewrite I3, S3, N3. cbn [length Nat.eqb negb rev app]. rewrite (mthen_ok _ _ _ _ E4).
      rewrite I4, S4. cbn [Nat.eqb negb rev app]. rewrite (mthen_ok _ _ _ _ E5).
      rewrite I5, S5. cbn [Nat.eqb negb rev app]. rewrite (mthen_ok _ _ _ _ E6).
      rewrite I6, S6. reflexivity. }
    rewrite (mthen_ok _ _ _ _ Eat). destruct (remove_node_R n6 g6 v R6 V6) as (n7 & E7 & R7 & Q7).
    exists n7. split; [exact E7|]. split; [exact R7|]. rewrite Q7, Q6, Q5, Q4, Q3, Q2, Q1. reflexivity.
  Qed.

  (** ** what the replacement does to the adjacency *)
  Section One.
    Context (g : graph) (v a b c x1 x2 x3 : string).
    Context (Hok : graph_ok g) (Hv : In v (labels g)) (Hn : in_neighbours g v = [x1; x2; x3]).
    Context (Hfresh : forall z, In z [a; b; c] -> ~ In z (labels g)) (Hd : NoDup [a; b; c]).
    Context (Hsym : forall x y, mult g x y = mult g y x) (Hle : forall x y, mult g x y <= 1) (Hirr : forall x, mult g x x = 0).
    Let g' := replaced g v a b c x1 x2 x3.

    Lemma nbr_facts : NoDup [v; a; b; c; x1; x2; x3] /\ In x1 (labels g) /\ In x2 (labels g) /\ In x3 (labels g).
    Proof.
      assert (Hin : forall z, In z [x1; x2; x3] -> In z (labels g) /\ z <> v).
      { intros z Hz. rewrite <- Hn in Hz. apply in_neighbours_mult in Hz. split.
        - destruct (in_dec eqd z (labels g)); [assumption|]. rewrite (mult_outside g z v Hok) in Hz by auto. congruence.
        - intros ->. rewrite Hirr in Hz. congruence. }
      assert (Hnd : NoDup [x1; x2; x3]) by (rewrite <- Hn; apply NoDup_in_neighbours).
      destruct (Hin x1) as [I1 D1]; [cbn; auto|]. destruct (Hin x2) as [I2 D2]; [cbn; auto|]. destruct (Hin x3) as [I3 D3]; [cbn; auto|].
      split; [|auto]. change [v; a; b; c; x1; x2; x3] with (v :: ([a; b; c] ++ [x1; x2; x3])). constructor.
      - rewrite in_app_iff. intros [Hx|Hx]; [exact (Hfresh v Hx Hv)|]. destruct (Hin v Hx). congruence.
      - assert (Dl : forall z w, In z [a; b; c] -> In w (labels g) -> z <> w) by (intros z w Hz Hw ->; exact (Hfresh _ Hz Hw)).
        pose proof (Dl a x1 ltac:(cbn; auto) ltac:(assumption)).
        pose proof (Dl a x2 ltac:(cbn; auto) ltac:(assumption)).
        pose proof (Dl a x3 ltac:(cbn; auto) ltac:(assumption)).
        pose proof (Dl b x1 ltac:(cbn; auto) ltac:(assumption)).
        pose proof (Dl b x2 ltac:(cbn; auto) ltac:(assumption)).
        pose proof (Dl b x3 ltac:(cbn; auto) ltac:(assumption)).
        pose proof (Dl c x1 ltac:(cbn; auto) ltac:(assumption)).
        pose proof (Dl c x2 ltac:(cbn; auto) ltac:(assumption)).
        pose proof (Dl c x3 ltac:(cbn; auto) ltac:(assumption)).
        inversion Hd as [|? ? A1 A2]; subst. inversion A2 as [|? ? B1 B2]; subst. inversion Hnd as [|? ? X1 X2]; subst. inversion X2 as [|? ? Y1 Y2]; subst.
        clear - A1 B1 X1 Y1 H H0 H1 H2 H3 H4 H5 H6 H7. cbn [In] in *. cbn [app]. repeat (constructor; [cbn [In]; intuition congruence|]). constructor.
    Qed.

    Lemma fresh_mult z y : In z [a; b; c] -> mult g z y = 0 /\ mult g y z = 0.
    Proof. intros Hz. pose proof (Hfresh z Hz). split; apply mult_outside; auto. Qed.

    Lemma mult_replaced x y : mult g' x y = if eqb x v || eqb y v then 0 else
      mult g x y + hits x y a b + hits x y a c + hits x y b c + hits x y c x1 + hits x y b x2 + hits x y a x3.
    Proof. unfold g', replaced. rewrite mult_remove_node, !mult_both. reflexivity. Qed.

    Lemma hits_sym x y i j : hits x y i j = hits y x i j.
    Proof. unfold hits, hit. rewrite !(andb_comm (eqb y _)). lia. Qed.

    Lemma replaced_sym x y : mult g' x y = mult g' y x.
    Proof. rewrite !mult_replaced, (orb_comm (eqb x v)), (Hsym x y). rewrite !(hits_sym x y). reflexivity. Qed.

    Ltac distinct :=
      destruct nbr_facts as (Hnd & Hl1 & Hl2 & Hl3);
      let V1 := fresh in let A1 := fresh in let B1 := fresh in let C1 := fresh in let X1 := fresh in let X2 := fresh in
      let N1 := fresh in let N2 := fresh in let N3 := fresh in let N4 := fresh in let N5 := fresh in let N6 := fresh in
      inversion Hnd as [|? ? V1 N1]; subst; inversion N1 as [|? ? A1 N2]; subst; inversion N2 as [|? ? B1 N3]; subst;
      inversion N3 as [|? ? C1 N4]; subst; inversion N4 as [|? ? X1 N5]; subst; inversion N5 as [|? ? X2 N6]; subst;
      cbn [In] in V1, A1, B1, C1, X1, X2; clear Hnd N1 N2 N3 N4 N5 N6.
    Ltac decide_eqb := repeat match goal with
      | |- context[eqb ?p ?p] => rewrite (eqb_refl p)
      | |- context[eqb ?p ?q] => rewrite (proj2 (eqb_false p q)) by (intuition congruence)
      end.

    Lemma row_a y : y <> v -> mult g' a y = one y b + one y c + one y x3.
    Proof.
      intros Hy. rewrite mult_replaced. destruct (fresh_mult a y ltac:(cbn; auto)) as [-> _]. unfold hits, hit, one. distinct.
      decide_eqb. cbn [orb andb]. rewrite ?(proj2 (eqb_false y v) Hy). destruct (eqb y b), (eqb y c), (eqb y x3), (eqb y a); reflexivity.
    Qed.
    Lemma row_b y : y <> v -> mult g' b y = one y a + one y c + one y x2.
    Proof.
      intros Hy. rewrite mult_replaced. destruct (fresh_mult b y ltac:(cbn; auto)) as [-> _]. unfold hits, hit, one. distinct.
      decide_eqb. cbn [orb andb]. rewrite ?(proj2 (eqb_false y v) Hy). destruct (eqb y b), (eqb y c), (eqb y x2), (eqb y a); reflexivity.
    Qed.
    Lemma row_c y : y <> v -> mult g' c y = one y a + one y b + one y x1.
    Proof.
      intros Hy. rewrite mult_replaced. destruct (fresh_mult c y ltac:(cbn; auto)) as [-> _]. unfold hits, hit, one. distinct.
      decide_eqb. cbn [orb andb]. rewrite ?(proj2 (eqb_false y v) Hy). destruct (eqb y b), (eqb y c), (eqb y x1), (eqb y a); reflexivity.
    Qed.
    Lemma row_old x y : x <> v -> y <> v -> ~ In x [a; b; c] -> ~ In y [a; b; c] -> mult g' x y = mult g x y.
    Proof.
      intros Hx Hy Fx Fy. rewrite mult_replaced. unfold hits, hit. cbn [In] in Fx, Fy.
      rewrite (proj2 (eqb_false x v) Hx), (proj2 (eqb_false y v) Hy). cbn [orb].
      assert (Q : forall z, z <> a -> z <> b -> z <> c -> eqb z a = false /\ eqb z b = false /\ eqb z c = false) by (intros; repeat split; apply eqb_false; assumption).
      destruct (Q x) as (-> & -> & ->); [intuition congruence..|]. destruct (Q y) as (-> & -> & ->); [intuition congruence..|]. cbn [andb]. rewrite !andb_false_r. lia.
    Qed.
    Lemma row_v x : mult g' v x = 0 /\ mult g' x v = 0.
    Proof. split; rewrite mult_replaced, eqb_refl, ?orb_true_r; reflexivity. Qed.

    Lemma old_nbrs y : mult g v y = one y x1 + one y x2 + one y x3.
    Proof.
      rewrite Hsym. pose proof (in_neighbours_mult g v y) as Hi. rewrite Hn in Hi. pose proof (Hle y v) as Hl. unfold one. distinct.
      destruct (eqb_spec y x1) as [->|Dy1]; [decide_eqb; assert (mult g x1 v <> 0) by (apply Hi; cbn; auto); lia|].
      destruct (eqb_spec y x2) as [->|Dy2]; [decide_eqb; assert (mult g x2 v <> 0) by (apply Hi; cbn; auto); lia|].
      destruct (eqb_spec y x3) as [->|Dy3]; [assert (mult g x3 v <> 0) by (apply Hi; cbn; auto); lia|].
      destruct (Nat.eq_dec (mult g y v) 0) as [E|E]; [lia|]. apply Hi in E. cbn [In] in E. intuition congruence.
    Qed.

    Lemma new_row z y : In z [a; b; c] -> ~ In y [v; a; b; c] -> mult g' a y + mult g' b y + mult g' c y = mult g v y.
    Proof.
      intros _ Hy. cbn [In] in Hy. rewrite row_a, row_b, row_c, old_nbrs by (intuition congruence). unfold one.
      destruct (eqb_spec y a); [intuition congruence|]. destruct (eqb_spec y b); [intuition congruence|]. destruct (eqb_spec y c); [intuition congruence|]. lia.
    Qed.

    Lemma replaced_cases (P : nat -> Prop) x y : P 0 ->
      (y <> v -> P (one y b + one y c + one y x3)) -> (y <> v -> P (one y a + one y c + one y x2)) -> (y <> v -> P (one y a + one y b + one y x1)) ->
      (x <> v -> P (one x b + one x c + one x x3)) -> (x <> v -> P (one x a + one x c + one x x2)) -> (x <> v -> P (one x a + one x b + one x x1)) ->
      P (mult g x y) -> P (mult g' x y).
    Proof.
      intros P0 Pa Pb Pc Qa Qb Qc Po.
      destruct (eqd x v) as [->|Hx]; [rewrite (proj1 (row_v y)); assumption|]. destruct (eqd y v) as [->|Hy]; [rewrite (proj2 (row_v x)); assumption|].
      destruct (eqd x a) as [->|Ha]; [rewrite row_a by assumption; auto|]. destruct (eqd x b) as [->|Hb]; [rewrite row_b by assumption; auto|].
      destruct (eqd x c) as [->|Hc]; [rewrite row_c by assumption; auto|]. rewrite replaced_sym.
      destruct (eqd y a) as [->|Ha']; [rewrite row_a by assumption; auto|]. destruct (eqd y b) as [->|Hb']; [rewrite row_b by assumption; auto|].
      destruct (eqd y c) as [->|Hc']; [rewrite row_c by assumption; auto|]. rewrite replaced_sym.
      rewrite row_old; cbn [In]; try assumption; intuition congruence.
    Qed.

    Lemma one_three y p q r : NoDup [p; q; r] -> one y p + one y q + one y r <= 1.
    Proof.
      intros Hq. unfold one. inversion Hq as [|? ? A1 A2]; subst. inversion A2 as [|? ? B1 B2]; subst. cbn [In] in *.
      destruct (eqb_spec y p), (eqb_spec y q), (eqb_spec y r); subst; try lia; exfalso; intuition congruence.
    Qed.

    Lemma replaced_le x y : mult g' x y <= 1.
    Proof.
      assert (T : NoDup [b; c; x3] /\ NoDup [a; c; x2] /\ NoDup [a; b; x1]).
      { destruct nbr_facts as (Hnd & _). inversion Hnd as [|? ? _ N1]; subst. inversion N1 as [|? ? A1 N2]; subst. inversion N2 as [|? ? B1 N3]; subst. inversion N3 as [|? ? C1 N4]; subst.
        inversion N4 as [|? ? X1 N5]; subst. inversion N5 as [|? ? X2 N6]; subst. cbn [In] in *. repeat split; repeat constructor; cbn; intuition congruence. }
      destruct T as (T1 & T2 & T3). apply (replaced_cases (fun k => k <= 1)); intros; try (apply one_three; assumption); [lia|apply Hle].
    Qed.

    Lemma replaced_irr x : mult g' x x = 0.
    Proof.
      destruct (eqd x v) as [->|Hx]; [apply row_v|]. distinct.
      destruct (eqd x a) as [->|Ha]; [rewrite row_a by assumption; unfold one; decide_eqb; reflexivity|].
      destruct (eqd x b) as [->|Hb]; [rewrite row_b by assumption; unfold one; decide_eqb; reflexivity|].
      destruct (eqd x c) as [->|Hc]; [rewrite row_c by assumption; unfold one; decide_eqb; reflexivity|].
      rewrite row_old; [apply Hirr|assumption|assumption| |]; cbn; intuition congruence.
    Qed.

    Lemma nbrs_of_list y l : NoDup l -> (forall x, In x l <-> mult g' x y <> 0) -> length (in_neighbours g' y) = length l.
    Proof.
      intros Hl Hi. apply Permutation_length, NoDup_Permutation; [apply NoDup_in_neighbours|assumption|]. intros x. rewrite in_neighbours_mult. symmetry. apply Hi.
    Qed.

    Lemma in_three y p q r : In y [p; q; r] <-> one y p + one y q + one y r <> 0.
    Proof. unfold one. cbn [In]. destruct (eqb_spec y p), (eqb_spec y q), (eqb_spec y r); subst; split; intros; try lia; intuition congruence. Qed.

    (** the new nodes have three neighbours, the old ones keep their number *)
    Lemma replaced_degree y : y <> v -> (In y [a; b; c] -> length (in_neighbours g' y) = 3) /\
      (~ In y [a; b; c] -> length (in_neighbours g' y) = length (in_neighbours g y)).
    Proof.
      intros Hy. split; intros Hyin.
      - assert (K : forall p q r, NoDup [p; q; r] -> (forall x, x <> v -> mult g' y x = one x p + one x q + one x r) -> ~ In v [p; q; r] -> length (in_neighbours g' y) = 3).
        { intros p q r Hq Hm Hvn. apply (nbrs_of_list y [p; q; r] Hq). intros x. rewrite replaced_sym. destruct (eqd x v) as [->|Hx].
          - rewrite (proj2 (row_v y)). tauto.
          - rewrite Hm by assumption. apply in_three. }
        destruct nbr_facts as (Hnd & _). inversion Hnd as [|? ? V1 N1]; subst. inversion N1 as [|? ? A1 N2]; subst. inversion N2 as [|? ? B1 N3]; subst. inversion N3 as [|? ? C1 N4]; subst.
        inversion N4 as [|? ? X1 N5]; subst. inversion N5 as [|? ? X2 N6]; subst. cbn [In] in V1, A1, B1, C1, X1, X2, Hyin.
        destruct Hyin as [<-|[<-|[<-|[]]]].
        + apply (K b c x3); [repeat constructor; cbn; intuition congruence|apply row_a|cbn; intuition congruence].
        + apply (K a c x2); [repeat constructor; cbn; intuition congruence|apply row_b|cbn; intuition congruence].
        + apply (K a b x1); [repeat constructor; cbn; intuition congruence|apply row_c|cbn; intuition congruence].
      - pose proof (old_nbrs y) as Ho. destruct nbr_facts as (Hnd & I1 & I2 & I3). inversion Hnd as [|? ? V1 N1]; subst. inversion N1 as [|? ? A1 N2]; subst. inversion N2 as [|? ? B1 N3]; subst. inversion N3 as [|? ? C1 N4]; subst.
        inversion N4 as [|? ? X1 N5]; subst. inversion N5 as [|? ? X2 N6]; subst. cbn [In] in V1, A1, B1, C1, X1, X2, Hyin.
        set (f := fun x => if eqb x v then (if eqb y x1 then c else if eqb y x2 then b else a) else x).
        assert (Hf : forall x, In x (in_neighbours g y) -> ~ In x [a; b; c]).
        { intros x Hx Hin. apply in_neighbours_mult in Hx. apply Hx. apply (proj1 (fresh_mult x y Hin)). }
        rewrite <- (map_length f (in_neighbours g y)). apply nbrs_of_list.
        + pose proof (NoDup_in_neighbours g y) as Hu. revert Hf Hu. generalize (in_neighbours g y) as l. induction l as [|z l IH]; intros Hf Hu; [constructor|].
          inversion Hu as [|? ? Z1 Z2]; subst. cbn [map]. constructor; [|apply IH; [intros; apply Hf; right; assumption|assumption]].
          intros Hz. apply in_map_iff in Hz. destruct Hz as (z' & E & Hz'). pose proof (Hf z (or_introl eq_refl)) as F1. pose proof (Hf z' (or_intror Hz')) as F2. cbn [In] in F1, F2.
          unfold f in E. destruct (eqb_spec z v) as [D1|D1]; destruct (eqb_spec z' v) as [D2|D2].
          * apply Z1. rewrite D1, <- D2. assumption.
          * destruct (eqb y x1), (eqb y x2); intuition congruence.
          * destruct (eqb y x1), (eqb y x2); intuition congruence.
          * apply Z1. rewrite <- E. assumption.
        + intros x. rewrite in_map_iff. split.
          * intros (z & <- & Hz). pose proof (Hf z Hz) as Fz. apply in_neighbours_mult in Hz. unfold f. destruct (eqb_spec z v) as [->|Dz].
            -- rewrite Ho in Hz. unfold one in Hz. destruct (eqb_spec y x1) as [->|]; [rewrite row_c by assumption; unfold one; rewrite (eqb_refl x1); lia|].
               destruct (eqb_spec y x2) as [->|]; [rewrite row_b by assumption; unfold one; rewrite (eqb_refl x2); lia|].
               destruct (eqb_spec y x3) as [->|]; [rewrite row_a by assumption; unfold one; rewrite (eqb_refl x3); lia|]. lia.
            -- rewrite row_old; try assumption.
          * intros Hx. destruct (eqd x v) as [->|Dv]; [rewrite (proj1 (row_v y)) in Hx; congruence|].
            destruct (in_dec eqd x [a; b; c]) as [Hin|Hin].
            -- exists v. unfold f. rewrite eqb_refl. rewrite in_neighbours_mult, Ho.
               assert (E1 : eqb y a = false /\ eqb y b = false /\ eqb y c = false) by (repeat split; apply eqb_false; intuition congruence). destruct E1 as (Ea & Eb & Ec).
               cbn [In] in Hin. destruct Hin as [<-|[<-|[<-|[]]]].
               ++ rewrite row_a in Hx by assumption. unfold one in *. rewrite Eb, Ec in Hx. destruct (eqb_spec y x3) as [->|]; [|lia].
                  rewrite (proj2 (eqb_false x3 x1)), (proj2 (eqb_false x3 x2)) by (intuition congruence). split; [reflexivity|lia].
               ++ rewrite row_b in Hx by assumption. unfold one in *. rewrite Ea, Ec in Hx. destruct (eqb_spec y x2) as [->|]; [|lia].
                  rewrite (proj2 (eqb_false x2 x1)) by (intuition congruence). split; [reflexivity|lia].
               ++ rewrite row_c in Hx by assumption. unfold one in *. rewrite Ea, Eb in Hx. destruct (eqb_spec y x1) as [->|]; [|lia]. split; [reflexivity|lia].
            -- exists x. unfold f. rewrite (proj2 (eqb_false x v) Dv). split; [reflexivity|]. apply in_neighbours_mult. rewrite <- row_old; assumption.
    Qed.

    Lemma replaced_labels : labels g' = filter (fun z => negb (eqb z v)) (labels g) ++ [a; b; c].
    Proof.
      destruct nbr_facts as (Hnd & I1 & I2 & I3). inversion Hnd as [|? ? V1 N1]; subst. inversion N1 as [|? ? A1 N2]; subst. inversion N2 as [|? ? B1 N3]; subst. inversion N3 as [|? ? C1 N4]; subst. cbn [In] in V1, A1, B1, C1.
      pose proof (Hfresh a ltac:(cbn; auto)) as Fa. pose proof (Hfresh b ltac:(cbn; auto)) as Fb. pose proof (Hfresh c ltac:(cbn; auto)) as Fc.
      assert (Eold : forall h i j, In i (labels h) -> In j (labels h) -> labels (both h i j) = labels h).
      { intros h i j Hi Hj. unfold both. rewrite !labels_add_old; try assumption; [reflexivity| |]; rewrite labels_add_old; assumption. }
      assert (Enew : forall h i j, In i (labels h) -> ~ In j (labels h) -> labels (both h i j) = labels h ++ [j]).
      { intros h i j Hi Hj. unfold both. assert (E : labels (spec_add_edge h i j []) = labels h ++ [j]).
        { rewrite labels_add_edge, !labels_ensure. destruct (in_dec eqd i (labels h)); [|contradiction]. destruct (in_dec eqd j (labels h)); [contradiction|reflexivity]. }
        rewrite labels_add_old; rewrite E; [reflexivity| |]; rewrite in_app_iff; cbn; auto. }
      assert (E1 : labels (both g a b) = labels g ++ [a; b]).
      { unfold both. assert (E : labels (spec_add_edge g a b []) = labels g ++ [a; b]).
        { rewrite labels_add_edge, !labels_ensure. destruct (in_dec eqd a (labels g)); [contradiction|]. destruct (in_dec eqd b (labels g ++ [a])) as [Hi|Hi]; [|rewrite <- app_assoc; reflexivity].
          apply in_app_or in Hi. cbn in Hi. intuition congruence. }
        rewrite labels_add_old; rewrite E; [reflexivity| |]; rewrite in_app_iff; cbn; auto. }
      assert (E2 : labels (both (both g a b) a c) = labels g ++ [a; b; c]).
      { rewrite Enew; rewrite E1; [rewrite <- app_assoc; reflexivity|rewrite in_app_iff; cbn; auto|]. rewrite in_app_iff. cbn. intuition congruence. }
      assert (Hin : forall z, In z (labels g) \/ In z [a; b; c] -> In z (labels g ++ [a; b; c])) by (intros z; rewrite in_app_iff; auto).
      assert (Estep : forall h i j, labels h = labels g ++ [a; b; c] -> In i (labels g) \/ In i [a; b; c] -> In j (labels g) \/ In j [a; b; c] -> labels (both h i j) = labels g ++ [a; b; c]).
      { intros h i j Eh Hi Hj. rewrite Eold, Eh; [reflexivity| |]; rewrite Eh; apply Hin; assumption. }
      unfold g', replaced. rewrite labels_remove_node.
      rewrite (Estep _ a x3); [|apply Estep; [apply Estep; [apply Estep; [exact E2| |]| |]| |]| |]; try (cbn; auto 6).
      rewrite filter_app. cbn [filter]. rewrite !(proj2 (eqb_false _ v)) by (intuition congruence). reflexivity.
    Qed.
  End One.

  (** ** the loop over the nodes *)
  Record good (g : graph) : Prop := mkGood {
    good_ok : graph_ok g;
    good_sym : forall x y, mult g x y = mult g y x;
    good_le : forall x y, mult g x y <= 1;
    good_irr : forall x, mult g x x = 0;
    good_deg : forall v, In v (labels g) -> length (in_neighbours g v) = 3 }.

  Definition total (m : string -> string -> nat) (X Y : list string) : nat := list_sum (map (fun x => list_sum (map (m x) Y)) X).

  Lemma total_ext m m' X Y : (forall x y, In x X -> In y Y -> m x y = m' x y) -> total m X Y = total m' X Y.
  Proof.
    intros He. unfold total. f_equal. apply map_ext_in. intros x Hx. f_equal. apply map_ext_in. intros y Hy. apply He; assumption.
  Qed.
  Lemma total_nil m X : total m X [] = 0.
  Proof. unfold total. induction X; [reflexivity|]. exact IHX. Qed.
  Lemma total_consr m X y Y : total m X (y :: Y) = list_sum (map (fun x => m x y) X) + total m X Y.
  Proof. unfold total. induction X as [|x X IH]; [reflexivity|]. cbn [map]. unfold list_sum in *. cbn [fold_right map] in *. lia. Qed.
  Lemma total_swap m X Y : (forall x y, m x y = m y x) -> total m X Y = total m Y X.
  Proof.
    intros Hs. induction Y as [|y Y IH]; [rewrite total_nil; reflexivity|]. rewrite total_consr, IH. unfold total at 2. cbn [map list_sum fold_right]. f_equal.
    f_equal. apply map_ext. intros x. apply Hs.
  Qed.

  Lemma filter_all_true (p : string -> bool) l : (forall z, In z l -> p z = true) -> filter p l = l.
  Proof. induction l as [|z l IH]; intros Hp; [reflexivity|]. cbn. rewrite (Hp z) by (left; reflexivity). rewrite IH by (intros; apply Hp; right; assumption). reflexivity. Qed.

  Definition group (P : list string) u : list string := if in_dec eqd u P then tri u else [u].

  Lemma app_length_str (s t : string) : String.length (s ++ t)%string = String.length s + String.length t.
  Proof. induction s as [|ch s IH]; [reflexivity|]. cbn. rewrite IH. reflexivity. Qed.
  Lemma app_one_inj (s t : string) (p q : string) : String.length p = 1 -> String.length q = 1 -> (s ++ p)%string = (t ++ q)%string -> s = t /\ p = q.
  Proof.
    intros Hp Hq. revert t. induction s as [|ch s IH]; intros [|ch' t] E; cbn in E.
    - auto.
    - subst p. cbn in Hp. rewrite app_length_str, Hq in Hp. lia.
    - subst q. cbn in Hq. rewrite app_length_str, Hp in Hq. lia.
    - injection E as -> E. destruct (IH t E) as [-> ->]. auto.
  Qed.
  Lemma in_tri v x : In x (tri v) <-> exists p, In p ["a"; "b"; "c"] /\ x = (v ++ p)%string.
  Proof.
    unfold tri. cbn [In]. split.
    - intros [<-|[<-|[<-|[]]]]; eexists; (split; [|reflexivity]); auto.
    - intros (p & [<-|[<-|[<-|[]]]] & ->); auto.
  Qed.
  Lemma abc_len p : In p ["a"; "b"; "c"] -> String.length p = 1.
  Proof. intros [<-|[<-|[<-|[]]]]; reflexivity. Qed.
  Lemma tri_len v x : In x (tri v) -> String.length x = S (String.length v).
  Proof. intros Hx. apply in_tri in Hx. destruct Hx as (p & Hp & ->). rewrite app_length_str, (abc_len p Hp). lia. Qed.
  Lemma tri_inj u v x : In x (tri u) -> In x (tri v) -> u = v.
  Proof.
    intros Hu Hv. apply in_tri in Hu, Hv. destruct Hu as (p & Hp & ->), Hv as (q & Hq & E). apply app_one_inj in E; [tauto|apply abc_len; assumption..].
  Qed.
  Lemma NoDup_tri v : NoDup (tri v).
  Proof.
    assert (K : forall p q, In p ["a"; "b"; "c"] -> In q ["a"; "b"; "c"] -> p <> q -> (v ++ p)%string <> (v ++ q)%string).
    { intros p q Hp Hq Hne E. apply app_one_inj in E; [tauto|apply abc_len; assumption..]. }
    unfold tri. repeat constructor; cbn [In]; intros Hx; repeat destruct Hx as [Hx|Hx]; try contradiction; revert Hx; apply K; cbn; auto; discriminate.
  Qed.

  (** everything known when the nodes [P] were replaced and the nodes [Q] were not *)
  Record stage (g0 : graph) (P Q : list string) (g : graph) : Prop := mkStage {
    st_good : good g;
    st_labels : labels g = Q ++ flat_map tri P;
    st_tri : forall v x y, In v P -> In x (tri v) -> In y (tri v) -> x <> y -> mult g x y = 1;
    st_total : forall u w, In u (P ++ Q) -> In w (P ++ Q) -> u <> w -> total (mult g) (group P u) (group P w) = mult g0 u w }.

  Lemma stage_start g0 : good g0 -> stage g0 [] (labels g0) g0.
  Proof.
    intros Hg. constructor; [assumption|cbn; rewrite app_nil_r; reflexivity|intros v x y []|].
    intros u w _ _ _. unfold group, total. cbn. lia.
  Qed.

  Lemma group_in P Q g0 g u x : stage g0 P Q g -> In u (P ++ Q) -> In x (group P u) -> In x (labels g).
  Proof.
    intros Hs Hu Hx. rewrite (st_labels _ _ _ _ Hs). apply in_or_app. unfold group in Hx. destruct (in_dec eqd u P) as [i|i].
    - right. apply in_flat_map. eauto.
    - left. destruct Hx as [<-|[]]. apply in_app_or in Hu. tauto.
  Qed.

  Lemma stage_step k g0 P v Q g n : NoDup (P ++ v :: Q) -> (forall u, In u (P ++ v :: Q) -> String.length u = k) -> stage g0 P (v :: Q) g -> R n g ->
    exists n' g', insert_triangle v n = (n', Ok tt) /\ R n' g' /\ stage g0 (P ++ [v]) Q g'.
  Proof.
    intros Hnd Hlen Hs HR. destruct Hs as [[Hok Hsym Hle Hirr Hdeg] Hlab Htri Htot].
    assert (Hv : In v (labels g)) by (rewrite Hlab; left; reflexivity).
    assert (HvP : ~ In v P) by (intros Hi; apply NoDup_remove_2 in Hnd; apply Hnd, in_or_app; auto).
    assert (HvQ : ~ In v Q) by (intros Hi; apply NoDup_remove_2 in Hnd; apply Hnd, in_or_app; auto).
    assert (Hlv : String.length v = k) by (apply Hlen, in_elt).
    pose proof (Hdeg v Hv) as Hd3. destruct (in_neighbours g v) as [|x1 [|x2 [|x3 [|]]]] eqn:En; try discriminate Hd3. clear Hd3.
    assert (Hfresh : forall z, In z (tri v) -> ~ In z (labels g)).
    { intros z Hz Hi. rewrite Hlab in Hi. pose proof (tri_len v z Hz) as Hzl. change (In z ((v :: Q) ++ flat_map tri P)) in Hi. apply in_app_or in Hi. destruct Hi as [Hi|Hi].
      - assert (String.length z = k) by (apply Hlen, in_or_app; right; assumption). lia.
      - apply in_flat_map in Hi. destruct Hi as (u & Hu & Hz'). rewrite (tri_inj u v z Hz' Hz) in Hu. contradiction. }
    assert (Htv : NoDup (v :: tri v)) by (constructor; [intros Hi; apply tri_len in Hi; lia|apply NoDup_tri]).
    assert (Hvx : ~ In v [x1; x2; x3]) by (rewrite <- En, in_neighbours_mult, Hirr; lia).
    destruct (insert_triangle_R n g v x1 x2 x3 HR Hv En Htv Hvx) as (n' & E & HR' & _).
    set (a := (v ++ "a")%string) in *. set (b := (v ++ "b")%string) in *. set (c := (v ++ "c")%string) in *. change (tri v) with [a; b; c] in *.
    set (g' := replaced g v a b c x1 x2 x3) in *.
    assert (Hd : NoDup [a; b; c]) by (inversion Htv; assumption).
    assert (Hlab' : labels g' = Q ++ flat_map tri (P ++ [v])).
    { unfold g'. rewrite (replaced_labels g v a b c x1 x2 x3 Hok Hv En Hfresh Hd Hirr), Hlab. rewrite flat_map_app. cbn [flat_map]. change (tri v ++ []) with [a; b; c]. rewrite app_assoc. f_equal.
      change ((v :: Q) ++ flat_map tri P) with (v :: (Q ++ flat_map tri P)). cbn [filter]. rewrite eqb_refl. cbn [negb]. apply filter_all_true. intros z Hz. apply negb_true_iff, eqb_false. intros ->.
      apply in_app_or in Hz. destruct Hz as [Hz|Hz]; [contradiction|]. apply in_flat_map in Hz. destruct Hz as (u & Hu & Hz). apply tri_len in Hz. rewrite (Hlen u) in Hz by (apply in_or_app; auto). lia. }
    assert (Hgrp : forall u z, In u (P ++ v :: Q) -> u <> v -> In z (group P u) -> z <> v /\ ~ In z [a; b; c]).
    { intros u z Hu Huv Hz. pose proof (group_in P (v :: Q) g0 g u z (mkStage _ _ _ _ (mkGood _ Hok Hsym Hle Hirr Hdeg) Hlab Htri Htot) Hu Hz) as Hzl.
      split; [|intros Hi; exact (Hfresh z Hi Hzl)]. intros ->. unfold group in Hz. destruct (in_dec eqd u P) as [i|i].
      - apply tri_len in Hz. rewrite (Hlen u Hu) in Hz. lia.
      - destruct Hz as [Hz|[]]. congruence. }
    assert (Hgeq : forall u, u <> v -> group (P ++ [v]) u = group P u).
    { intros u Huv. unfold group. destruct (in_dec eqd u (P ++ [v])) as [i|i], (in_dec eqd u P) as [j|j]; try reflexivity.
      - apply in_app_or in i. destruct i as [i|[i|[]]]; [contradiction|congruence].
      - exfalso. apply i, in_or_app. auto. }
    assert (Hgv : group (P ++ [v]) v = [a; b; c]).
    { unfold group. destruct (in_dec eqd v (P ++ [v])) as [i|i]; [reflexivity|]. exfalso. apply i, in_or_app. right. left. reflexivity. }
    assert (Hgv0 : group P v = [v]) by (unfold group; destruct (in_dec eqd v P); [contradiction|reflexivity]).
    assert (Hsym' : forall x y, mult g' x y = mult g' y x) by (intros; apply replaced_sym; assumption).
    assert (Hside : forall w, In w (P ++ v :: Q) -> w <> v -> total (mult g') [a; b; c] (group P w) = mult g0 v w).
    { intros w Hw Hwv. rewrite <- (Htot v w); [|apply in_elt|assumption|congruence]. rewrite Hgv0. pose proof (fun z => Hgrp w z Hw Hwv) as Hz.
      induction (group P w) as [|y Y IH]; [reflexivity|]. rewrite !total_consr, IH by (intros z Hi; apply Hz; right; assumption). f_equal. destruct (Hz y (or_introl eq_refl)) as [Hy1 Hy2].
      cbn [map list_sum fold_right]. assert (E1 : mult g' a y + mult g' b y + mult g' c y = mult g v y); [|lia].
      apply (new_row g v a b c x1 x2 x3 Hok Hv En Hfresh Hd Hsym Hle Hirr a y); [left; reflexivity|]. cbn [In] in *. intuition congruence. }
    exists n', g'. split; [assumption|]. split; [assumption|]. constructor.
    - constructor.
      + apply HR'.
      + assumption.
      + intros x y. apply replaced_le; assumption.
      + intros x. apply replaced_irr; assumption.
      + intros y Hy. assert (Hyv : y <> v).
        { intros ->. rewrite Hlab' in Hy. apply in_app_or in Hy. destruct Hy as [Hy|Hy]; [contradiction|]. apply in_flat_map in Hy. destruct Hy as (u & Hu & Hz). apply tri_len in Hz.
          rewrite (Hlen u) in Hz; [lia|]. apply in_app_or in Hu. apply in_or_app. destruct Hu as [Hu|[<-|[]]]; [auto|right; left; reflexivity]. }
        destruct (replaced_degree g v a b c x1 x2 x3 Hok Hv En Hfresh Hd Hsym Hle Hirr y Hyv) as [D1 D2]. destruct (in_dec eqd y [a; b; c]) as [i|i]; [apply D1; assumption|]. fold g' in D2. rewrite D2 by assumption.
        apply Hdeg. rewrite Hlab' in Hy. rewrite Hlab. rewrite flat_map_app in Hy. cbn [flat_map] in Hy. change (tri v ++ []) with [a; b; c] in Hy.
        apply in_app_or in Hy. destruct Hy as [Hy|Hy]; [apply in_or_app; left; right; assumption|]. apply in_app_or in Hy. destruct Hy as [Hy|Hy]; [|contradiction]. apply in_or_app. right. assumption.
    - assumption.
    - intros u x y Hu Hx Hy Hxy. apply in_app_or in Hu. destruct Hu as [Hu|[<-|[]]].
      + assert (Huv : u <> v) by (intros ->; contradiction). assert (Hu' : In u (P ++ v :: Q)) by (apply in_or_app; auto).
        assert (Hg : group P u = tri u) by (unfold group; destruct (in_dec eqd u P); [reflexivity|contradiction]).
        destruct (Hgrp u x Hu' Huv) as [A1 A2]; [rewrite Hg; assumption|]. destruct (Hgrp u y Hu' Huv) as [B1 B2]; [rewrite Hg; assumption|].
        unfold g'. rewrite row_old by assumption. apply (Htri u); assumption.
      + change (tri v) with [a; b; c] in Hx, Hy. destruct (nbr_facts g v a b c x1 x2 x3 Hok Hv En Hfresh Hd Hirr) as (Hnd7 & _).
        assert (Ra : forall y, y <> v -> mult g' a y = one y b + one y c + one y x3) by (intros; apply row_a; assumption).
        assert (Rb : forall y, y <> v -> mult g' b y = one y a + one y c + one y x2) by (intros; apply row_b; assumption).
        assert (Rc : forall y, y <> v -> mult g' c y = one y a + one y b + one y x1) by (intros; apply row_c; assumption).
        assert (Lle : mult g' x y <= 1) by (apply replaced_le; assumption).
        assert (Hyv : y <> v) by (intros ->; inversion Htv; contradiction).
        clearbody g' a b c. clear - Ra Rb Rc Lle Hxy Hx Hy Hyv. cbn [In] in Hx, Hy. unfold one in *.
        destruct Hx as [<-|[<-|[<-|[]]]]; destruct Hy as [<-|[<-|[<-|[]]]]; try congruence;
          first [rewrite Ra in * by assumption | rewrite Rb in * by assumption | rewrite Rc in * by assumption]; rewrite eqb_refl in *; lia.
    - intros u w Hu Hw Huw. assert (Hin : forall z, In z ((P ++ [v]) ++ Q) -> In z (P ++ v :: Q)) by (intros z; rewrite <- app_assoc; auto).
      destruct (eqd u v) as [->|Huv]; [|destruct (eqd w v) as [->|Hwv]].
      + rewrite Hgv, Hgeq by congruence. apply Hside; [auto|congruence].
      + rewrite Hgv, Hgeq by congruence. rewrite total_swap by assumption. rewrite Hside; [|auto|assumption]. rewrite <- (Htot u v), <- (Htot v u); try (apply in_elt); auto.
        apply total_swap. assumption.
      + rewrite !Hgeq by assumption. rewrite <- (Htot u w) by auto. apply total_ext. intros x y Hx Hy.
        destruct (Hgrp u x (Hin _ Hu) Huv Hx) as [A1 A2]. destruct (Hgrp w y (Hin _ Hw) Hwv Hy) as [B1 B2]. apply row_old; assumption.
  Qed.

  Lemma stage_loop k g0 Q : forall P g n, NoDup (P ++ Q) -> (forall u, In u (P ++ Q) -> String.length u = k) -> stage g0 P Q g -> R n g ->
    exists n' g', mfor Q insert_triangle n = (n', Ok tt) /\ R n' g' /\ stage g0 (P ++ Q) [] g'.
  Proof.
    induction Q as [|v Q IH]; intros P g n Hnd Hlen Hs HR.
    - exists n, g. rewrite app_nil_r. auto.
    - destruct (stage_step k g0 P v Q g n Hnd Hlen Hs HR) as (n1 & g1 & E1 & R1 & S1).
      assert (Ea : P ++ v :: Q = (P ++ [v]) ++ Q) by (rewrite <- app_assoc; reflexivity). rewrite Ea in Hnd, Hlen.
      destruct (IH (P ++ [v]) g1 n1 Hnd Hlen S1 R1) as (n2 & g2 & E2 & R2 & S2). exists n2, g2. cbn [mfor]. rewrite (mthen_ok _ _ _ _ E1), E2, Ea. auto.
  Qed.

  Lemma evolving_rule_ok k n g : R n g -> good g -> (forall u, In u (nodes n) -> String.length u = k) ->
    exists n' g', evolving_rule n = Ok n' /\ R n' g' /\ stage g (nodes n) [] g'.
  Proof.
    intros HR Hg Hlen. rewrite (labels_R n g HR) in *. unfold evolving_rule. rewrite (labels_R n g HR).
    destruct (stage_loop k g (labels g) [] g (copy n)) as (n' & g' & E & R' & S'); [cbn [app]; rewrite <- (labels_R n g HR); exact (R_NoDup _ _ HR)|assumption|apply stage_start; assumption|apply copy_R; assumption|].
    exists n', g'. rewrite E. auto.
  Qed.

  Lemma keeps_attach v size ks : forall ins, keeps (V:=V) (attach v size ks ins).
  Proof.
    induction ks as [|k ks IH]; intros ins n Hn; cbn [attach]; destruct (in_edges n v) as [inc|]; try exact Hn; destruct (negb (length inc =? size)); try exact Hn.
    destruct (rev ins) as [|ch r]; [exact Hn|]. apply keeps_mthen; [exact (keeps_op (OpAddEdgeBidir ch k []))|apply IH|exact Hn].
  Qed.
  Lemma evolving_rule_reachable n n' : reachable n -> evolving_rule n = Ok n' -> reachable n'.
  Proof.
    intros Hn E. unfold evolving_rule, result_of in E.
    assert (K : keeps (mfor (nodes n) (insert_triangle (V:=V)))).
    { apply keeps_mfor. intros v _. unfold insert_triangle. cbv zeta. apply keeps_mthen; [exact (keeps_op (OpAddEdgeBidir _ _ []))|]. apply keeps_mthen; [exact (keeps_op (OpAddEdgeBidir _ _ []))|].
      apply keeps_mthen; [exact (keeps_op (OpAddEdgeBidir _ _ []))|]. intros m Hm. destruct (in_edges m v); [|exact Hm]. apply keeps_mthen; [apply keeps_attach|exact (keeps_op (OpRemoveNode v))|exact Hm]. }
    specialize (K _ (keeps_copy n Hn)). destruct (mfor (nodes n) insert_triangle (copy n)) as [m [u|e]]; [|discriminate]. injection E as <-. exact K.
  Qed.
End Evolving.
