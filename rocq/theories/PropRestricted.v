(** Property theorem for demos/restricted_network_automata (C90): a game of life of links. *)
From Verif Require Import Py PyFacts ListFacts Network NetworkSpec NetworkProofs NetworkProofs2 NetworkProofs3 Topology Lattice Evolve EvolveSpec EvolveProofs TopoRun DemoNets PropEvolving PropRandomNet NetMult.
Open Scope string_scope.
Open Scope list_scope.
Open Scope nat_scope.

(** ** Specification *)
Section Spec.
  Context {L V : Type} `{EqD L}.
  Notation network := (network L V).

  (** the number of edges into [v] *)
  Definition indeg (n : network) (v : L) : nat := list_sum (map (fun u => links n u v) (nodes n)).
  (** the number of edges from [x] to [y] after one step: between different nodes of the underlying network an edge is born where
      the underlying network allows it and the ends have combined in-degree 2, and survives where they have combined in-degree 3 *)
  Definition life_links (under n : network) (x y : L) : nat :=
    if in_dec eqd x (nodes under) then if in_dec eqd y (nodes under) then if eqd x y then links n x y else
      if links n x y =? 0 then if (indeg n x + indeg n y =? 2) && negb (links under x y =? 0) then 1 else 0
      else if indeg n x + indeg n y =? 3 then links n x y else 0
    else links n x y else links n x y.
End Spec.

(** ** Proofs *)
Section Proofs.
  Context {L V : Type} `{EqD L}.
  Notation network := (network L V).
  Notation graph := (graph L V).

  Lemma sum_filter (f : L -> nat) l : list_sum (map f l) = list_sum (map f (filter (fun u => negb (f u =? 0)) l)).
  Proof. induction l as [|u l IH]; [reflexivity|]. cbn [map filter]. destruct (Nat.eqb_spec (f u) 0) as [E|E]; cbn [negb map]; unfold list_sum in *; cbn [fold_right]; lia. Qed.
  Lemma sum_perm (f : L -> nat) l l' : Permutation l l' -> list_sum (map f l) = list_sum (map f l').
  Proof. induction 1; unfold list_sum in *; cbn [map fold_right]; lia. Qed.

  Lemma indeg_R (n : network) g v : R n g -> indeg n v = length (edges_into g v).
  Proof.
    intros HR. rewrite edges_into_sum. unfold indeg. rewrite (map_ext _ (fun u => mult g u v)) by (intros; apply links_R; assumption). rewrite sum_filter. apply sum_perm.
    apply NoDup_Permutation; [apply NoDup_filter; exact (R_NoDup _ _ HR)|apply NoDup_in_neighbours|]. intros u. rewrite filter_In, in_neighbours_mult, negb_true_iff, Nat.eqb_neq. split; [tauto|].
    intros Hm. split; [|assumption]. rewrite (labels_R n g HR). destruct (in_dec eqd u (labels g)); [assumption|]. exfalso. apply Hm, mult_outside; [apply HR|auto].
  Qed.
  Lemma in_degree_links (n : network) g v : R n g -> In v (nodes n) -> in_degree n v = Ok (Z.of_nat (indeg n v)).
  Proof.
    intros HR Hv. rewrite (in_degree_R n g v HR), (indeg_R n g v HR). rewrite (labels_R n g HR) in Hv. apply is_nodeb_true in Hv. rewrite Hv. reflexivity.
  Qed.
  Lemma in_degree_missing (n : network) g v : R n g -> ~ In v (nodes n) -> in_degree n v = Err KeyError.
  Proof.
    intros HR Hv. rewrite (in_degree_R n g v HR). destruct (is_nodeb g v) eqn:E; [|reflexivity]. apply is_nodeb_true in E. rewrite (labels_R n g HR) in Hv. contradiction.
  Qed.
  Lemma has_edge_links (n : network) g i j : R n g -> has_edge n i j = negb (links n i j =? 0).
  Proof. intros HR. rewrite (has_edge_R n g i j HR), (links_R n g i j HR). unfold mult. destruct (between g i j); reflexivity. Qed.

  Section Rule.
    Context (under cur : network) (gu gc : graph) (HRu : R under gu) (HRc : R cur gc) (Hincl : incl (nodes under) (nodes cur)).

    Lemma link_one_R n g i j : In i (nodes under) -> In j (nodes under) -> R n g -> labels g = nodes cur -> mult g j i = links cur j i ->
      exists n' g', link_one under cur i (Z.of_nat (indeg cur i)) j n = (n', Ok tt) /\ R n' g' /\ labels g' = nodes cur /\
        forall x y, mult g' x y = if eqb x j && eqb y i then life_links under cur x y else mult g x y.
    Proof.
      intros Hi Hj HR Hl Hm. unfold link_one. assert (Hsame : life_links under cur j i = mult g j i -> forall x y, mult g x y = if eqb x j && eqb y i then life_links under cur x y else mult g x y).
      { intros E x y. destruct (eqb_spec x j) as [->|]; [destruct (eqb_spec y i) as [->|]|]; cbn; congruence. }
      assert (El : life_links under cur j i = if eqd j i then links cur j i else
        if links cur j i =? 0 then if (indeg cur j + indeg cur i =? 2) && negb (links under j i =? 0) then 1 else 0
        else if indeg cur j + indeg cur i =? 3 then links cur j i else 0).
      { unfold life_links. destruct (in_dec eqd j (nodes under)); [|contradiction]. destruct (in_dec eqd i (nodes under)); [|contradiction]. reflexivity. }
      destruct (eqd i j) as [->|Hij].
      - exists n, g. split; [reflexivity|]. split; [assumption|]. split; [assumption|]. apply Hsame. rewrite El. destruct (eqd j j); [congruence|contradiction].
      - rewrite (in_degree_links cur gc j HRc) by (apply Hincl; assumption). rewrite !(has_edge_links cur gc j i HRc), (has_edge_links under gu j i HRu), negb_involutive.
        replace (Z.of_nat (indeg cur i) + Z.of_nat (indeg cur j) =? 2)%Z with (indeg cur j + indeg cur i =? 2) by (destruct (Nat.eqb_spec (indeg cur j + indeg cur i) 2), (Z.eqb_spec (Z.of_nat (indeg cur i) + Z.of_nat (indeg cur j)) 2); lia || reflexivity).
        replace (Z.of_nat (indeg cur i) + Z.of_nat (indeg cur j) =? 3)%Z with (indeg cur j + indeg cur i =? 3) by (destruct (Nat.eqb_spec (indeg cur j + indeg cur i) 3), (Z.eqb_spec (Z.of_nat (indeg cur i) + Z.of_nat (indeg cur j)) 3); lia || reflexivity).
        destruct (eqd j i) as [E|_]; [congruence|].
        assert (Hlj : In j (labels g)) by (rewrite Hl; apply Hincl; assumption). assert (Hli : In i (labels g)) by (rewrite Hl; apply Hincl; assumption).
        destruct (Nat.eqb_spec (links cur j i) 0) as [Ez|Ez]; cbn [negb andb].
        + rewrite andb_true_r, andb_false_r. destruct ((indeg cur j + indeg cur i =? 2) && negb (links under j i =? 0)) eqn:Eb.
          * destruct (add_edge_R n g j i [] HR eq_refl) as (n' & E & R' & _). exists n', (spec_add_edge g j i []). split; [assumption|]. split; [assumption|]. split; [rewrite labels_add_old; assumption|].
            intros x y. rewrite mult_add_edge. unfold hit. destruct (eqb_spec x j) as [->|]; [destruct (eqb_spec y i) as [->|]|]; cbn [andb]; lia.
          * exists n, g. split; [reflexivity|]. split; [assumption|]. split; [assumption|]. apply Hsame. congruence.
        + rewrite andb_false_r. cbn [andb]. rewrite andb_true_r. destruct (indeg cur j + indeg cur i =? 3).
          * exists n, g. split; [reflexivity|]. split; [assumption|]. split; [assumption|]. apply Hsame. congruence.
          * destruct (remove_edge_R n g j i HR) as (n' & E & R' & _); [apply mult_edge; congruence|]. exists n', (spec_remove_edge g j i). split; [assumption|]. split; [assumption|]. split; [rewrite labels_remove_edge; assumption|].
            intros x y. rewrite mult_remove_edge. destruct (eqb_spec x j) as [->|]; [destruct (eqb_spec y i) as [->|]|]; cbn [andb]; congruence.
    Qed.

    Lemma link_row_R i js : In i (nodes under) -> incl js (nodes under) -> NoDup js -> forall n g, R n g -> labels g = nodes cur -> (forall j, In j js -> mult g j i = links cur j i) ->
      exists n' g', mfor js (link_one under cur i (Z.of_nat (indeg cur i))) n = (n', Ok tt) /\ R n' g' /\ labels g' = nodes cur /\
        forall x y, mult g' x y = if (if in_dec eqd x js then true else false) && eqb y i then life_links under cur x y else mult g x y.
    Proof.
      intros Hi. induction js as [|j js IH]; intros Hin Hnd n g HR Hl Hm.
      - exists n, g. split; [reflexivity|]. auto.
      - inversion Hnd as [|? ? Hj Hnd']; subst. destruct (link_one_R n g i j Hi (Hin j (or_introl eq_refl)) HR Hl (Hm j (or_introl eq_refl))) as (n1 & g1 & E1 & R1 & L1 & M1).
        destruct (IH (fun z Hz => Hin z (or_intror Hz)) Hnd' n1 g1 R1 L1) as (n2 & g2 & E2 & R2 & L2 & M2).
        { intros z Hz. rewrite M1. destruct (eqb_spec z j) as [->|]; [contradiction|]. cbn [andb]. apply Hm. right. assumption. }
        exists n2, g2. cbn [mfor]. rewrite (mthen_ok _ _ _ _ E1), E2. split; [reflexivity|]. split; [assumption|]. split; [assumption|].
        intros x y. rewrite M2, M1. destruct (in_dec eqd x js) as [a|a]; destruct (in_dec eqd x (j :: js)) as [b|b]; cbn [In] in b; destruct (eqb_spec x j) as [c|c]; destruct (eqb_spec y i) as [d|d]; cbn [andb]; try reflexivity; exfalso; intuition congruence.
    Qed.

    Lemma rows_R is : incl is (nodes under) -> NoDup is -> NoDup (nodes under) -> forall n g, R n g -> labels g = nodes cur -> (forall i j, In i is -> In j (nodes under) -> mult g j i = links cur j i) ->
      exists n' g', mfor is (link_row under cur) n = (n', Ok tt) /\ R n' g' /\ labels g' = nodes cur /\
        forall x y, mult g' x y = if (if in_dec eqd x (nodes under) then true else false) && (if in_dec eqd y is then true else false) then life_links under cur x y else mult g x y.
    Proof.
      intros Hin Hnd Hndu. revert Hin Hnd. induction is as [|i is IH]; intros Hin Hnd n g HR Hl Hm.
      - exists n, g. split; [reflexivity|]. split; [assumption|]. split; [assumption|]. intros x y. rewrite andb_false_r. reflexivity.
      - inversion Hnd as [|? ? Hi Hnd']; subst. pose proof (Hin i (or_introl eq_refl)) as Hiu.
        destruct (link_row_R i (nodes under) Hiu (incl_refl _) Hndu n g HR Hl (fun j Hj => Hm i j (or_introl eq_refl) Hj)) as (n1 & g1 & E1 & R1 & L1 & M1).
        destruct (IH (fun z Hz => Hin z (or_intror Hz)) Hnd' n1 g1 R1 L1) as (n2 & g2 & E2 & R2 & L2 & M2).
        { intros z j Hz Hj. rewrite M1. destruct (eqb_spec z i) as [->|]; [contradiction|]. rewrite andb_false_r. apply Hm; [right; assumption|assumption]. }
        exists n2, g2. cbn [mfor]. assert (E1' : link_row under cur i n = (n1, Ok tt)) by (unfold link_row; rewrite (in_degree_links cur gc i HRc) by (apply Hincl; assumption); exact E1).
        rewrite (mthen_ok _ _ _ _ E1'), E2. split; [reflexivity|]. split; [assumption|]. split; [assumption|].
        intros x y. rewrite M2, M1. destruct (in_dec eqd x (nodes under)) as [a|a]; cbn [andb]; [|reflexivity].
        destruct (in_dec eqd y is) as [b|b]; destruct (in_dec eqd y (i :: is)) as [c|c]; cbn [In] in c; destruct (eqb_spec y i) as [d|d]; try reflexivity; exfalso; intuition congruence.
    Qed.
  End Rule.

  Lemma keeps_link_row (under cur : network) i : keeps (link_row under cur i).
  Proof.
    intros n Hn. unfold link_row. destruct (in_degree cur i) as [di|]; [|exact Hn]. revert n Hn. change (keeps (mfor (nodes under) (link_one under cur i di))). apply keeps_mfor. intros j _ n Hn. unfold link_one.
    destruct (eqd i j); [exact Hn|]. destruct (in_degree cur j); [|exact Hn].
    repeat match goal with |- context[if ?b then _ else _] => destruct b end; try exact Hn; [exact (keeps_op (OpAddEdge j i []) n Hn)|exact (keeps_op (OpRemoveEdge j i) n Hn)].
  Qed.

  (** C90: the rule computes exactly the next links *)
  Theorem C90_one_step : forall (under n : network), reachable under -> reachable n -> incl (nodes under) (nodes n) ->
    exists n', restricted_rule under n = Ok n' /\ reachable n' /\ nodes n' = nodes n /\ forall x y, links n' x y = life_links under n x y.
  Proof.
    intros under n Hru Hrn Hi. destruct (reachable_R under Hru) as [gu HRu]. destruct (reachable_R n Hrn) as [g HR]. unfold restricted_rule.
    destruct (rows_R under n gu g HRu HR Hi (nodes under) (incl_refl _) (R_NoDup _ _ HRu) (R_NoDup _ _ HRu) (copy n) g (copy_R n g HR) (eq_sym (labels_R n g HR))) as (n' & g' & E & R' & L' & M').
    { intros i j _ _. symmetry. apply links_R. assumption. }
    exists n'. rewrite E. split; [reflexivity|]. split; [|split].
    - pose proof (keeps_mfor (nodes under) (link_row under n) (fun i _ => keeps_link_row under n i) (copy n) (keeps_copy n Hrn)) as K. rewrite E in K. exact K.
    - rewrite (labels_R n' g' R'). assumption.
    - intros x y. rewrite (links_R n' g' x y R'), M'. unfold life_links at 2. rewrite <- (links_R n g x y HR). unfold life_links.
      destruct (in_dec eqd x (nodes under)); cbn [andb]; [|reflexivity]. destruct (in_dec eqd y (nodes under)); reflexivity.
  Qed.

  (** a node of the underlying network that the network lacks makes the rule raise KeyError *)
  Theorem C90_missing_node : forall (under n : network) v, reachable under -> reachable n -> In v (nodes under) -> ~ In v (nodes n) -> restricted_rule under n = Err KeyError.
  Proof.
    intros under n v Hru Hrn Hv Hn. destruct (reachable_R under Hru) as [gu HRu]. destruct (reachable_R n Hrn) as [g HR].
    assert (Hfail : forall i js (m : network) gm, In v js -> incl js (nodes under) -> NoDup js -> In i (nodes n) -> In i (nodes under) -> R m gm -> (forall z, In z (nodes n) -> In z (labels gm)) -> (forall j, In j js -> mult gm j i = links n j i) ->
      exists m', mfor js (link_one under n i (Z.of_nat (indeg n i))) m = (m', Err KeyError)).
    { intros i js. induction js as [|j js IH]; intros m gm Hvj Hinj Hnd Hin Hiu Rm Lm Mm; [contradiction|]. inversion Hnd as [|? ? Hj Hnd']; subst. cbn [mfor].
      destruct (in_dec eqd j (nodes n)) as [Hjn|Hjn].
      - assert (Hvj' : In v js) by (destruct Hvj as [<-|]; [contradiction|assumption]).
        assert (K : exists m1 gm1, link_one under n i (Z.of_nat (indeg n i)) j m = (m1, Ok tt) /\ R m1 gm1 /\ (forall z, In z (nodes n) -> In z (labels gm1)) /\ (forall k, k <> j -> mult gm1 k i = mult gm k i)).
        { unfold link_one. destruct (eqd i j); [exists m, gm; auto|]. rewrite (in_degree_links n g j HR Hjn). rewrite !(has_edge_links n g j i HR).
          destruct (((Z.of_nat (indeg n i) + Z.of_nat (indeg n j) =? 2)%Z && negb (negb (links n j i =? 0)) && has_edge under j i)).
          - destruct (add_edge_R m gm j i [] Rm eq_refl) as (m1 & E & R1 & _). exists m1, (spec_add_edge gm j i []). split; [assumption|]. split; [assumption|]. split.
            + intros z Hz. rewrite labels_add_old by (apply Lm; assumption). apply Lm. assumption.
            + intros k Hk. rewrite mult_add_edge. unfold hit. destruct (eqb_spec k j); [contradiction|]. cbn. lia.
          - destruct ((Z.of_nat (indeg n i) + Z.of_nat (indeg n j) =? 3)%Z && negb (links n j i =? 0)); [exists m, gm; auto|]. destruct (Nat.eqb_spec (links n j i) 0) as [Ez|Ez]; cbn [negb]; [exists m, gm; auto|].
            destruct (remove_edge_R m gm j i Rm) as (m1 & E & R1 & _); [apply mult_edge; rewrite Mm by (left; reflexivity); assumption|]. exists m1, (spec_remove_edge gm j i). split; [assumption|]. split; [assumption|]. split.
            + intros z Hz. rewrite labels_remove_edge. apply Lm. assumption.
            + intros k Hk. rewrite mult_remove_edge. destruct (eqb_spec k j); [contradiction|]. reflexivity. }
        destruct K as (m1 & gm1 & E1 & R1 & L1 & M1). rewrite (mthen_ok _ _ _ _ E1). apply (IH m1 gm1); try assumption; [intros z Hz; apply Hinj; right; assumption|].
        intros k Hk. rewrite M1 by (intros ->; contradiction). apply Mm. right. assumption.
      - exists m. unfold mthen, mbind, link_one. destruct (eqd i j) as [->|]; [contradiction|]. rewrite (in_degree_missing n g j HR Hjn). reflexivity. }
    unfold restricted_rule. destruct (nodes under) as [|i is] eqn:Eu; [contradiction|]. cbn [mfor]. unfold mthen, mbind, link_row at 1. destruct (in_dec eqd i (nodes n)) as [Hin|Hin].
    - rewrite (in_degree_links n g i HR Hin). rewrite Eu. destruct (Hfail i (i :: is) (copy n) g) as [m' E].
      + assumption.
      + apply incl_refl.
      + rewrite <- Eu. exact (R_NoDup _ _ HRu).
      + assumption.
      + left. reflexivity.
      + apply copy_R. assumption.
      + intros z. rewrite (labels_R n g HR). auto.
      + intros j _. symmetry. apply links_R. assumption.
      + rewrite E. reflexivity.
    - rewrite (in_degree_missing n g i HR Hin). reflexivity.
  Qed.
End Proofs.

Section Consequences.
  Context {L V : Type} `{EqD L}.
  Notation network := (network L V).

  (** C90: what one step keeps: undirected stays undirected, simple stays simple, and no edge appears that neither the underlying
      network nor the network itself has *)
  Theorem C90_invariants : forall (under n n' : network), (forall x y, links n' x y = life_links under n x y) ->
    ((forall x y, links under x y = links under y x) -> (forall x y, links n x y = links n y x) -> forall x y, links n' x y = links n' y x) /\
    ((forall x y, links n x y <= 1) -> forall x y, links n' x y <= 1) /\
    (forall x y, links n' x y <> 0 -> links under x y <> 0 \/ links n x y <> 0).
  Proof.
    intros under n n' E. split; [|split].
    - intros Hu Hn x y. rewrite !E. unfold life_links. rewrite (Hn y x), (Hu y x), (Nat.add_comm (indeg n y)).
      destruct (in_dec eqd x (nodes under)), (in_dec eqd y (nodes under)); try reflexivity. destruct (eqd x y), (eqd y x); first [reflexivity|congruence].
    - intros Hn x y. rewrite E. unfold life_links. specialize (Hn x y). repeat match goal with |- context[if ?b then _ else _] => destruct b end; lia.
    - intros x y. rewrite E. unfold life_links. destruct (in_dec eqd x (nodes under)); [|auto]. destruct (in_dec eqd y (nodes under)); [|auto]. destruct (eqd x y); [auto|].
      destruct (Nat.eqb_spec (links n x y) 0) as [Ez|Ez]; [|auto]. destruct (Nat.eqb_spec (links under x y) 0) as [Eu|Eu]; [|auto]. cbn [negb]. rewrite andb_false_r. congruence.
  Qed.

  (** C90: the rule commutes with the symmetries of the underlying network *)
  Theorem C90_equivariant : forall (under n1 n2 : network) (f : L -> L), nodes n1 = nodes n2 -> nodes under = nodes n1 \/ Permutation (nodes under) (nodes n1) ->
    NoDup (nodes n1) -> Permutation (map f (nodes n1)) (nodes n1) ->
    (forall x y, In x (nodes n1) -> In y (nodes n1) -> links under (f x) (f y) = links under x y /\ links n2 (f x) (f y) = links n1 x y) ->
    forall x y, In x (nodes n1) -> In y (nodes n1) -> life_links under n2 (f x) (f y) = life_links under n1 x y.
  Proof.
    intros under n1 n2 f En Hu Hnd Hp Hf. assert (Hu' : Permutation (nodes under) (nodes n1)) by (destruct Hu as [->|]; [reflexivity|assumption]). clear Hu.
    assert (Hin : forall z, In z (nodes under) <-> In z (nodes n1)) by (intros z; split; apply Permutation_in; [|symmetry]; assumption).
    assert (Hfin : forall z, In z (nodes n1) -> In (f z) (nodes n1)) by (intros z Hz; apply (Permutation_in _ Hp), in_map; assumption).
    assert (Hinj : forall x y, In x (nodes n1) -> In y (nodes n1) -> f x = f y -> x = y).
    { assert (Hm : NoDup (map f (nodes n1))) by (apply (Permutation_NoDup (Permutation_sym Hp) Hnd)). clear - Hm Hnd. induction (nodes n1) as [|z l IH]; [intros x y []|]. cbn [map] in Hm. inversion Hm as [|? ? M1 M2]; subst. inversion Hnd as [|? ? N1 N2]; subst.
      intros x y [<-|Hx] [<-|Hy] E; try reflexivity; [| |apply IH; assumption]; exfalso; apply M1; [rewrite E|rewrite <- E]; apply in_map; assumption. }
    assert (Hdeg : forall z, In z (nodes n1) -> indeg n2 (f z) = indeg n1 z).
    { intros z Hz. unfold indeg. rewrite <- En. rewrite <- (sum_perm (fun u => links n2 u (f z)) _ _ Hp). rewrite map_map. f_equal. apply map_ext_in. intros u Hu. apply Hf; assumption. }
    intros x y Hx Hy. destruct (Hf x y Hx Hy) as [F1 F2]. unfold life_links. rewrite F1, F2, (Hdeg x Hx), (Hdeg y Hy).
    destruct (in_dec eqd (f x) (nodes under)) as [|c]; [|exfalso; apply c, Hin, Hfin; assumption]. destruct (in_dec eqd (f y) (nodes under)) as [|c]; [|exfalso; apply c, Hin, Hfin; assumption].
    destruct (in_dec eqd x (nodes under)) as [|c]; [|exfalso; apply c, Hin; assumption]. destruct (in_dec eqd y (nodes under)) as [|c]; [|exfalso; apply c, Hin; assumption].
    destruct (eqd (f x) (f y)) as [E|E], (eqd x y) as [E'|E']; try reflexivity; exfalso; [apply E', Hinj; assumption|congruence].
  Qed.

  (** C90: the run *)
  Theorem C90_run : forall {A U I BA BN} `{EqD A} (W : env L V A BA BN) fuel (g : @args L V A U I) u0 (under n : network) initial T,
    topology_only g (restricted_rule under) -> (1 <= T)%Z -> Z.to_nat T <= fuel ->
    reachable under -> reachable n -> incl (nodes under) (nodes n) -> nodes n <> [] ->
    exists traj ms, evolve W fuel u0 n initial (Some T) None g = Ok (u0, traj) /\ Z.of_nat (length ms) = T /\
      Forall2 (fun s m => state_network W s = Ok (Some m)) traj ms /\ nth_error ms 0 = Some n /\
      (forall t m, nth_error ms t = Some m -> reachable m /\ nodes m = nodes n) /\
      (forall t m m', nth_error ms t = Some m -> nth_error ms (S t) = Some m' -> forall x y, links m' x y = life_links under m x y).
  Proof.
    intros A U I BA BN EA W fuel g u0 under n initial T [Hr Ht Hco Hpn Hpa] HT Hfu Hru Hrn Hi Hne.
    assert (Hgiven : forall m, nodes (given g m) = nodes m /\ (forall x y, life_links under (given g m) x y = life_links under m x y) /\ (reachable m -> reachable (given g m))).
    { intros m. unfold given. destruct (g_copy g); [|auto]. split; [reflexivity|]. split; [reflexivity|apply keeps_copy]. }
    assert (Hstep : forall m, reachable m /\ nodes m = nodes n -> exists m', restricted_rule under (given g m) = Ok m' /\ (reachable m' /\ nodes m' = nodes n) /\ forall x y, links m' x y = life_links under m x y).
    { intros m [P1 P2]. destruct (Hgiven m) as (G1 & G2 & G3). destruct (C90_one_step under (given g m) Hru (G3 P1)) as (m' & E & Q1 & Q2 & Q3); [rewrite G1, P2; assumption|].
      exists m'. split; [assumption|]. split; [split; [assumption|congruence]|]. intros x y. rewrite Q3. apply G2. }
    destruct (topo_run W g (fun m _ _ => restricted_rule under m) Hr Ht Hco Hpn Hpa fuel u0 n initial T (fun _ m => reachable m /\ nodes m = nodes n) HT Hfu) as (traj & ms & E & Hl & Hf & H0 & HP & Hs).
    - auto.
    - intros k m _ Hm. destruct (Hstep m Hm) as (m' & E & Pm & _). exists m'. split; [auto|]. split; [|assumption]. apply nodes_net_nodes. destruct Pm as [_ ->]. assumption.
    - exists traj, ms. split; [assumption|]. split; [assumption|]. split; [|split; [assumption|split; [assumption|]]].
      + apply shown_some; [assumption|]. intros m Hm. apply In_nth_error in Hm. destruct Hm as [t Hm]. destruct (HP t m Hm) as [_ ->]. assumption.
      + intros t m m' Hm Hm'. destruct (Hstep m (HP t m Hm)) as (m'' & E' & _ & Hlk). pose proof (Hs t m m' Hm Hm' []) as E''. rewrite E' in E''. injection E'' as <-. assumption.
  Qed.
End Consequences.

(** ** The spaceship of the demo *)

(** restricted_network_automata_demo.py:17-34 *)
Notation demo_under := (lattice (V:=Z) [1%Z; 6%Z; 9%Z] true false 0%Z).
Definition ship_edges : list (Z * Z) := [(9, 10); (3, 9); (15, 9); (15, 14); (8, 14); (2, 8); (7, 8)]%Z.
Definition demo_start : network Z Z := fst (run_ops (flat_map (fun e => [OpAddEdge (fst e) (snd e) []; OpAddEdge (snd e) (fst e) []]) ship_edges) (init_network 54)).
(** one column further on the 6 by 9 torus *)
Definition shift (k x : Z) : Z := ((x + 6 * k) mod 54)%Z.

Definition under0 : network Z Z := Eval vm_compute in match demo_under with Ok m => m | Err _ => empty_network end.
Definition start0 : network Z Z := Eval vm_compute in demo_start.
Definition next0 : network Z Z := Eval vm_compute in match restricted_rule under0 start0 with Ok m => m | Err _ => empty_network end.
Definition next1 : network Z Z := Eval vm_compute in match restricted_rule under0 next0 with Ok m => m | Err _ => empty_network end.

Lemma under0_eq : demo_under = Ok under0. Proof. vm_compute. reflexivity. Qed.
Lemma start0_eq : demo_start = start0. Proof. vm_compute. reflexivity. Qed.
Lemma next0_eq : restricted_rule under0 start0 = Ok next0. Proof. vm_compute. reflexivity. Qed.
Lemma next1_eq : restricted_rule under0 next0 = Ok next1. Proof. vm_compute. reflexivity. Qed.

Lemma lattice_reachable {V} dim p s f (n : network Z V) : lattice dim p s f = Ok n -> reachable n.
Proof.
  unfold lattice. destruct (grid_graph dim p) as [G|]; [|discriminate]. cbn [rbind]. set (l := ug_edges _). set (body := fun e : Z * Z => _).
  assert (K : keeps (mfor l body)).
  { apply keeps_mfor. intros e _. unfold body. destruct (_ && _); [apply keeps_ret|]. apply keeps_mthen; [exact (keeps_op (OpAddEdge (snd e) (fst e) []))|exact (keeps_op (OpAddEdge (fst e) (snd e) []))]. }
  specialize (K empty_network). assert (Hem : reachable (empty_network : network Z V)) by (exists []; reflexivity). specialize (K Hem). destruct (mfor l body empty_network) as [m [u|e]]; [|discriminate].
  intros E. injection E as <-. exact K.
Qed.
Lemma ops_reachable {L V} `{EqD L} (os : list (op (L:=L) (V:=V))) n : reachable n -> reachable (fst (run_ops os n)).
Proof.
  revert n. induction os as [|o os IH]; intros n Hn; [exact Hn|]. cbn [run_ops]. pose proof (keeps_op o n Hn) as K. destruct (run_op o n) as [n1 r]. specialize (IH n1 K). destruct (run_ops os n1). exact IH.
Qed.

(** the two shapes of the spaceship *)
Definition phase (t : nat) : list (Z * Z) := if Nat.even t then ship_edges else [(2, 3); (13, 14); (15, 16); (14, 20); (15, 21)]%Z.
Definition drawn (l : list (Z * Z)) (x y : Z) : nat := list_sum (map (joins x y) l).

Definition on_grid (p : Z -> Z -> bool) : bool := forallb (fun x => forallb (p x) (zrange 0 54)) (zrange 0 54).
Lemma on_grid_all p : on_grid p = true -> forall x y, In x (zrange 0 54) -> In y (zrange 0 54) -> p x y = true.
Proof. intros Hg x y Hx Hy. unfold on_grid in Hg. rewrite forallb_forall in Hg. specialize (Hg x Hx). rewrite forallb_forall in Hg. exact (Hg y Hy). Qed.

Lemma check_start : on_grid (fun x y => links start0 x y =? drawn (phase 0) x y) = true. Proof. vm_compute. reflexivity. Qed.
Lemma check_next0 : on_grid (fun x y => links next0 x y =? drawn (phase 1) x y) = true. Proof. vm_compute. reflexivity. Qed.
Lemma check_next1 : on_grid (fun x y => links next1 (shift 1 x) (shift 1 y) =? links start0 x y) = true. Proof. vm_compute. reflexivity. Qed.
Lemma check_under : on_grid (fun x y => links under0 (shift 1 x) (shift 1 y) =? links under0 x y) = true. Proof. vm_compute. reflexivity. Qed.

Lemma shift_in k x : In (shift k x) (zrange 0 54).
Proof. apply in_zrange. unfold shift. apply Z.mod_pos_bound. lia. Qed.
Lemma shift_0 x : In x (zrange 0 54) -> shift 0 x = x.
Proof. intros Hx. apply in_zrange in Hx. unfold shift. rewrite Z.mul_0_r, Z.add_0_r. apply Z.mod_small. lia. Qed.
Lemma shift_add k l x : shift (k + l) x = shift l (shift k x).
Proof. unfold shift. rewrite Zplus_mod_idemp_l. f_equal. lia. Qed.
Lemma shift_perm k : Permutation (map (shift k) (zrange 0 54)) (zrange 0 54).
Proof.
  assert (Hinj : forall x y, In x (zrange 0 54) -> In y (zrange 0 54) -> shift k x = shift k y -> x = y).
  { intros x y Hx Hy E. apply (f_equal (shift (- k))) in E. rewrite <- !shift_add in E. replace (k + - k)%Z with 0%Z in E by lia. rewrite !shift_0 in E by assumption. assumption. }
  apply NoDup_Permutation_bis.
  - pose proof (NoDup_zrange 0 54) as Hd. clear - Hinj Hd. induction (zrange 0 54) as [|z l IH]; [constructor|]. inversion Hd as [|? ? D1 D2]; subst. cbn [map]. constructor.
    + intros Hz. apply in_map_iff in Hz. destruct Hz as (w & E & Hw). apply Hinj in E; [subst; contradiction|right; assumption|left; reflexivity].
    + apply IH; [|assumption]. intros x y Hx Hy. apply Hinj; right; assumption.
  - rewrite map_length. reflexivity.
  - intros z Hz. apply in_map_iff in Hz. destruct Hz as (w & <- & _). apply shift_in.
Qed.
Lemma under_shift (k : nat) x y : In x (zrange 0 54) -> In y (zrange 0 54) -> links under0 (shift (Z.of_nat k) x) (shift (Z.of_nat k) y) = links under0 x y.
Proof.
  intros Hx Hy. induction k as [|k IH]; [change (Z.of_nat 0) with 0%Z; rewrite !shift_0 by assumption; reflexivity|].
  replace (Z.of_nat (S k)) with (Z.of_nat k + 1)%Z by lia. rewrite !shift_add, <- IH. apply Nat.eqb_eq, (on_grid_all _ check_under); apply shift_in.
Qed.

Lemma under0_reachable : reachable under0.
Proof. exact (lattice_reachable _ _ _ _ _ under0_eq). Qed.

Lemma reachable_next (n n' : network Z Z) : reachable n -> nodes under0 = nodes n \/ incl (nodes under0) (nodes n) -> restricted_rule under0 n = Ok n' ->
  reachable n' /\ forall x y, links n' x y = life_links under0 n x y.
Proof.
  intros Hn Hi E. destruct (C90_one_step under0 n) as (m & E' & Hr & _ & Hl); [exact under0_reachable|assumption|destruct Hi as [<-|]; [apply incl_refl|assumption]|].
  rewrite E in E'. injection E' as ->. auto.
Qed.

(** C90: the demo's spaceship never stops: at timestep t it has the shape [phase t], moved by t / 2 columns *)
Theorem C90_spaceship : forall {A U I BA BN} `{EqD A} (W : env Z Z A BA BN) fuel (g : @args Z Z A U I) u0 under initial T,
  demo_under = Ok under -> topology_only g (restricted_rule under) -> (1 <= T)%Z -> Z.to_nat T <= fuel ->
  exists traj ms, evolve W fuel u0 demo_start initial (Some T) None g = Ok (u0, traj) /\ Z.of_nat (length ms) = T /\
    Forall2 (fun s m => state_network W s = Ok (Some m)) traj ms /\
    forall t m, nth_error ms t = Some m -> nodes m = zrange 0 54 /\
      let k := Z.of_nat (t / 2) in forall x y, (0 <= x < 54)%Z -> (0 <= y < 54)%Z -> links m (shift k x) (shift k y) = drawn (phase t) x y.
Proof.
  intros A U I BA BN EA W fuel g u0 under initial T Eu Hg HT Hfu. rewrite under0_eq in Eu. injection Eu as <-.
  assert (Hru : reachable under0) by exact under0_reachable.
  assert (Hrs : reachable demo_start) by (apply ops_reachable, init_network_reachable). rewrite start0_eq in *.
  assert (Hns : nodes start0 = zrange 0 54) by (vm_compute; reflexivity).
  assert (Hiu : incl (nodes under0) (zrange 0 54)).
  { intros z Hz. assert (Ha : forallb (fun z => (0 <=? z)%Z && (z <? 54)%Z) (nodes under0) = true) by (vm_compute; reflexivity). rewrite forallb_forall in Ha. specialize (Ha z Hz). apply in_zrange. lia. }
  assert (Hndu : NoDup (nodes under0)) by (destruct (reachable_R under0 Hru) as [gu HRu]; exact (R_NoDup _ _ HRu)).
  assert (Hpu : Permutation (nodes under0) (zrange 0 54)) by (apply NoDup_Permutation_bis; [assumption|vm_compute; reflexivity|assumption]).
  destruct (C90_run W fuel g u0 under0 start0 initial T Hg HT Hfu Hru Hrs) as (traj & ms & E & Hl & Hf & H0 & HP & Hs); [rewrite Hns; assumption|rewrite Hns; discriminate|].
  exists traj, ms. split; [assumption|]. split; [assumption|]. split; [assumption|].
  destruct (reachable_next start0 next0 Hrs ltac:(right; rewrite Hns; assumption) next0_eq) as [Hr0 L0].
  assert (Hn0 : nodes next0 = zrange 0 54) by (vm_compute; reflexivity).
  destruct (reachable_next next0 next1 Hr0 ltac:(right; rewrite Hn0; assumption) next1_eq) as [Hr1 L1].
  assert (Hinv : forall t m, nth_error ms t = Some m -> nodes m = zrange 0 54 /\
    forall x y, In x (zrange 0 54) -> In y (zrange 0 54) -> links m (shift (Z.of_nat (t / 2)) x) (shift (Z.of_nat (t / 2)) y) = links (if Nat.even t then start0 else next0) x y).
  { intros t. induction t as [|t IH]; intros m Hm.
    - rewrite H0 in Hm. injection Hm as <-. split; [assumption|]. intros x y Hx Hy. change (Z.of_nat (0 / 2)) with 0%Z. rewrite !shift_0 by assumption. reflexivity.
    - destruct (nth_error ms t) as [m0|] eqn:Em0; [|apply nth_error_None in Em0; assert (S t < length ms) by (apply nth_error_Some; congruence); lia].
      destruct (IH m0 eq_refl) as [N0 I0]. destruct (HP (S t) m Hm) as [_ Nm]. rewrite Hns in Nm. split; [assumption|]. intros x y Hx Hy.
      set (b := if Nat.even t then start0 else next0) in *. assert (Nb : nodes b = zrange 0 54) by (unfold b; destruct (Nat.even t); assumption).
      set (k := t / 2) in *.
      assert (Heq : forall u w, In u (zrange 0 54) -> In w (zrange 0 54) -> links m (shift (Z.of_nat k) u) (shift (Z.of_nat k) w) = life_links under0 b u w).
      { intros u w Hu Hw. rewrite (Hs t m0 m Em0 Hm). apply (C90_equivariant under0 b m0 (shift (Z.of_nat k))); rewrite ?Nb; try assumption.
        - symmetry. assumption.
        - right. assumption.
        - apply NoDup_zrange.
        - apply shift_perm.
        - intros p q Hp Hq. split; [apply under_shift; assumption|apply I0; assumption]. }
      destruct (Nat.even t) eqn:Ev.
      + assert (Ek : S t / 2 = k). { apply Nat.even_spec in Ev. destruct Ev as [c Ev]. unfold k. rewrite Ev. replace (S (2 * c)) with (1 + c * 2) by lia. rewrite Nat.div_add, Nat.mul_comm, Nat.div_mul by lia. reflexivity. }
        rewrite Ek, Nat.even_succ, <- Nat.negb_even, Ev. cbn [negb]. rewrite Heq by assumption. symmetry. apply L0.
      + assert (Ek : S t / 2 = S k).
        { rewrite <- Nat.negb_odd in Ev. apply negb_false_iff, Nat.odd_spec in Ev. destruct Ev as [c Ev]. unfold k. rewrite Ev. replace (S (2 * c + 1)) with (0 + (S c) * 2) by lia. replace (2 * c + 1) with (1 + c * 2) by lia. rewrite !Nat.div_add by lia. reflexivity. }
        rewrite Ek, Nat.even_succ, <- Nat.negb_even, Ev. cbn [negb].
        replace (Z.of_nat (S k)) with (1 + Z.of_nat k)%Z by lia. rewrite !shift_add, Heq by apply shift_in.
        rewrite <- L1. apply Nat.eqb_eq, (on_grid_all _ check_next1); assumption. }
  intros t m Hm. destruct (Hinv t m Hm) as [Nm Im]. split; [assumption|]. cbv zeta. intros x y Hx Hy. apply in_zrange in Hx, Hy. rewrite Im by assumption. unfold phase.
  destruct (Nat.even t); apply Nat.eqb_eq; [exact (on_grid_all _ check_start x y Hx Hy)|exact (on_grid_all _ check_next0 x y Hx Hy)].
Qed.

(** the hypotheses of C90_one_step are met by the demo *)
Example C90_hypotheses_met : exists under, demo_under = Ok under /\ reachable under /\ reachable demo_start /\ incl (nodes under) (nodes demo_start) /\ nodes demo_start <> [] /\ life_links under demo_start 2%Z 3%Z = 1 /\ life_links under demo_start 2%Z 8%Z = 0.
Proof.
  exists under0. split; [exact under0_eq|]. split; [exact under0_reachable|]. split; [apply ops_reachable, init_network_reachable|]. rewrite start0_eq. split.
  - intros z Hz. assert (Ha : forallb (fun z => existsb (Z.eqb z) (nodes start0)) (nodes under0) = true) by (vm_compute; reflexivity). rewrite forallb_forall in Ha. specialize (Ha z Hz).
    apply existsb_exists in Ha. destruct Ha as (w & Hw & Ew). apply Z.eqb_eq in Ew. subst. assumption.
  - split; [discriminate|]. split; vm_compute; reflexivity.
Qed.

Print Assumptions C90_one_step.
Print Assumptions C90_missing_node.
Print Assumptions C90_invariants.
Print Assumptions C90_equivariant.
Print Assumptions C90_run.
Print Assumptions C90_spaceship.
