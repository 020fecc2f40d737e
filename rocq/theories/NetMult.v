(** The number of parallel edges between two nodes, and how the mutations change it. *)
From Verif Require Import Py PyFacts Network NetworkSpec NetworkProofs NetworkProofs2 NetworkProofs3.
Open Scope nat_scope.

Section Mult.
  Context {L V : Type} `{EqD L}.
  Notation network := (network L V).
  Notation graph := (graph L V).
  Implicit Types (g : graph) (v w x y i j : L) (n : network).

  Definition mult g x y : nat := length (between g x y).
  Definition labels g : list L := map fst (g_nodes g).
  (** 1 if (x, y) is (i, j) *)
  Definition hit x y i j : nat := if eqb x i && eqb y j then 1 else 0.

  Lemma mult_add_edge g i j a x y : mult (spec_add_edge g i j a) x y = mult g x y + hit x y i j.
  Proof.
    unfold mult, hit. change (between (spec_add_edge g i j a) x y) with (betw (g_edges (spec_add_edge g i j a)) x y).
    assert (E : g_edges (spec_add_edge g i j a) = g_edges g ++ [(i, j, a)]).
    { unfold spec_add_edge, ensure_node. cbn [g_edges]. f_equal. repeat match goal with |- context[if ?b then _ else _] => destruct b end; reflexivity. }
    rewrite E, betw_snoc, app_length. f_equal. rewrite (eqb_sym x i), (eqb_sym y j). destruct (eqb i x && eqb j y); reflexivity.
  Qed.

  Lemma mult_remove_node g v x y : mult (spec_remove_node g v) x y = if eqb x v || eqb y v then 0 else mult g x y.
  Proof.
    unfold mult, between, spec_remove_node. cbn [g_edges]. rewrite !map_length, filter_filter.
    destruct (eqb x v || eqb y v) eqn:E.
    - rewrite (filter_ext_in _ (fun _ => false)); [induction (g_edges g); [reflexivity|assumption]|].
      intros e _. destruct (eqb_spec (src e) x) as [->|]; [|rewrite ?andb_false_r; reflexivity]. destruct (eqb_spec (tgt e) y) as [->|]; [|rewrite ?andb_false_r; reflexivity].
      rewrite E. reflexivity.
    - f_equal. apply filter_ext_in. intros e _. destruct (eqb_spec (src e) x) as [->|]; [|rewrite ?andb_false_r; reflexivity].
      destruct (eqb_spec (tgt e) y) as [->|]; [|rewrite ?andb_false_r; reflexivity]. rewrite E. reflexivity.
  Qed.

  Lemma mult_remove_edge g i j x y : mult (spec_remove_edge g i j) x y = if eqb x i && eqb y j then 0 else mult g x y.
  Proof.
    unfold mult, between, spec_remove_edge. cbn [g_edges]. rewrite !map_length, filter_filter.
    destruct (eqb x i && eqb y j) eqn:E.
    - rewrite (filter_ext_in _ (fun _ => false)); [induction (g_edges g); [reflexivity|assumption]|].
      intros e _. destruct (eqb_spec (src e) x) as [->|]; [|rewrite ?andb_false_r; reflexivity]. destruct (eqb_spec (tgt e) y) as [->|]; [|rewrite ?andb_false_r; reflexivity].
      rewrite E. reflexivity.
    - f_equal. apply filter_ext_in. intros e _. destruct (eqb_spec (src e) x) as [->|]; [|rewrite ?andb_false_r; reflexivity].
      destruct (eqb_spec (tgt e) y) as [->|]; [|rewrite ?andb_false_r; reflexivity]. rewrite E. reflexivity.
  Qed.

  Lemma mult_outside g x y : graph_ok g -> ~ In x (labels g) \/ ~ In y (labels g) -> mult g x y = 0.
  Proof.
    intros Hok Hx. unfold mult. destruct (between g x y) eqn:E; [reflexivity|]. exfalso.
    destruct (between_nodes g x y Hok) as [H1 H2]; [congruence|]. unfold is_node in *. unfold labels in Hx. tauto.
  Qed.

  Lemma mult_edge g x y : mult g x y <> 0 <-> between g x y <> [].
  Proof. unfold mult. destruct (between g x y); cbn; split; congruence. Qed.

  Lemma in_neighbours_mult g v x : In x (in_neighbours g v) <-> mult g x v <> 0.
  Proof.
    rewrite mult_edge. change (between g x v) with (betw (g_edges g) x v). rewrite betw_nil_iff, dkeys_inc_of. reflexivity.
  Qed.
  Lemma NoDup_in_neighbours g v : NoDup (in_neighbours g v).
  Proof. apply NoDup_dedup. Qed.

  Lemma labels_ensure g v : labels (ensure_node g v) = if in_dec eqd v (labels g) then labels g else labels g ++ [v].
  Proof. unfold labels, ensure_node, is_nodeb. destruct (in_dec eqd v (map fst (g_nodes g))); [reflexivity|]. cbn [g_nodes]. rewrite map_app. reflexivity. Qed.
  Lemma labels_add_edge g i j a : labels (spec_add_edge g i j a) = labels (ensure_node (ensure_node g i) j).
  Proof. reflexivity. Qed.
  Lemma labels_add_old g i j a : In i (labels g) -> In j (labels g) -> labels (spec_add_edge g i j a) = labels g.
  Proof.
    intros Hi Hj. rewrite labels_add_edge, !labels_ensure. destruct (in_dec eqd i (labels g)); [|contradiction]. destruct (in_dec eqd j (labels g)); [reflexivity|contradiction].
  Qed.
  Lemma labels_remove_node g v : labels (spec_remove_node g v) = filter (fun x => negb (eqb x v)) (labels g).
  Proof. unfold labels, spec_remove_node. cbn [g_nodes]. induction (g_nodes g) as [|[k a] l IH]; [reflexivity|]. cbn. destruct (eqb k v); cbn; rewrite IH; reflexivity. Qed.
  Lemma labels_remove_edge g i j : labels (spec_remove_edge g i j) = labels g.
  Proof. reflexivity. Qed.

  (** edges into a node, counted by source *)
  Lemma edges_into_sum g v : length (edges_into g v) = list_sum (map (fun x => mult g x v) (in_neighbours g v)).
  Proof.
    change (length (edges_into g v)) with (length (into (g_edges g) v)).
    rewrite <- (Permutation_length (perm_group src (dedup (map src (into (g_edges g) v))) (into (g_edges g) v) (NoDup_dedup _)
      (fun e He => proj2 (in_dedup _ _) (in_map src _ _ He)))).
    rewrite flat_map_concat_map. unfold in_neighbours. change (edges_into g v) with (into (g_edges g) v).
    induction (dedup (map src (into (g_edges g) v))) as [|x l IH]; [reflexivity|]. cbn [map concat]. rewrite app_length, IH. cbn [list_sum fold_right]. f_equal.
    unfold mult. change (between g x v) with (betw (g_edges g) x v). rewrite betw_into. reflexivity.
  Qed.

  Lemma add_bidir_R n g i j : R n g -> exists n', add_edge_bidir i j [] n = (n', Ok tt) /\ R n' (spec_add_edge (spec_add_edge g i j []) j i []) /\ net_rot n' = net_rot n.
  Proof.
    intros HR. destruct (add_edge_R n g i j [] HR eq_refl) as (n1 & E1 & R1 & Q1). destruct (add_edge_R n1 _ j i [] R1 eq_refl) as (n2 & E2 & R2 & Q2).
    exists n2. unfold add_edge_bidir. change (mthen (add_edge i j []) (add_edge j i []) n = (n2, Ok tt) /\ R n2 (spec_add_edge (spec_add_edge g i j []) j i []) /\ net_rot n2 = net_rot n). rewrite (mthen_ok _ _ _ _ E1), E2. split; [reflexivity|]. split; [assumption|congruence].
  Qed.

  Lemma in_neighbours_add g i j a v : j <> v -> in_neighbours (spec_add_edge g i j a) v = in_neighbours g v.
  Proof.
    intros Hj. unfold in_neighbours, edges_into.
    assert (E : g_edges (spec_add_edge g i j a) = g_edges g ++ [(i, j, a)]).
    { unfold spec_add_edge, ensure_node. cbn [g_edges]. f_equal. repeat match goal with |- context[if ?b then _ else _] => destruct b end; reflexivity. }
    rewrite E, filter_app. cbn [filter]. unfold tgt at 2. cbn [fst snd]. rewrite (proj2 (eqb_false j v) Hj), app_nil_r. reflexivity.
  Qed.

  Lemma copy_R n g : R n g -> R (copy n) g.
  Proof. intros [E Hok]. split; assumption. Qed.
  (** ** mutations of networks that a program can build lead to networks that a program can build *)
  Definition keeps (m : mut (L:=L) (V:=V) unit) : Prop := forall n, reachable n -> reachable (fst (m n)).

  Lemma run_ops_snoc (os : list (op (L:=L) (V:=V))) o n : fst (run_ops (os ++ [o]) n) = fst (run_op o (fst (run_ops os n))).
  Proof.
    revert n. induction os as [|p os IH]; intros n; cbn [app run_ops].
    - cbn [fst]. destruct (run_op o n) as [n1 r]. reflexivity.
    - destruct (run_op p n) as [n1 r]. specialize (IH n1). destruct (run_ops (os ++ [o]) n1), (run_ops os n1). exact IH.
  Qed.
  Lemma keeps_op o : keeps (run_op o).
  Proof. intros n [os <-]. exists (os ++ [o]). apply run_ops_snoc. Qed.
  Lemma keeps_copy n : reachable n -> reachable (copy n).
  Proof. exact (keeps_op OpCopy n). Qed.
  Lemma keeps_mthen m k : keeps m -> keeps k -> keeps (mthen m k).
  Proof. intros Hm Hk n Hn. unfold mthen, mbind. specialize (Hm n Hn). destruct (m n) as [n1 [u|e]]; [apply Hk|]; exact Hm. Qed.
  Lemma keeps_mfor {X} (l : list X) (f : X -> mut (L:=L) (V:=V) unit) : (forall z, In z l -> keeps (f z)) -> keeps (mfor l f).
  Proof.
    induction l as [|z l IH]; intros Hf; [intros n Hn; exact Hn|]. cbn [mfor]. apply keeps_mthen; [apply Hf; left; reflexivity|]. apply IH. intros z' Hz. apply Hf. right. assumption.
  Qed.
  Lemma keeps_ret : keeps (mret tt).
  Proof. intros n Hn. exact Hn. Qed.

  (** the number of edges from [x] to [y], counted in the listing [Network.edges] *)
  Definition links n x y : nat := length (filter (fun e => eqb (src e) x && eqb (tgt e) y) (edges n)).
  Lemma links_R n g x y : R n g -> links n x y = mult g x y.
  Proof.
    intros HR. unfold links, mult, between. rewrite map_length. apply filter_perm_length. exact (edges_R n g HR).
  Qed.
  Lemma labels_R n g : R n g -> nodes n = labels g.
  Proof. exact (nodes_R n g). Qed.

  (** ** paths *)
  Inductive path n : L -> L -> Prop :=
  | path_refl x : path n x x
  | path_step x y z : links n x y <> 0 -> path n y z -> path n x z.
  Definition connected n : Prop := forall x y, In x (nodes n) -> In y (nodes n) -> path n x y.
  Lemma path_trans n x y z : path n x y -> path n y z -> path n x z.
  Proof. induction 1 as [|x w y Hl _ IH]; [auto|]. intros Hz. econstructor; eauto. Qed.
  Lemma path_more n n' x y : (forall u w, links n u w <> 0 -> links n' u w <> 0) -> path n x y -> path n' x y.
  Proof. intros Hm. induction 1 as [|u w z Hl _ IH]; [constructor|]. econstructor; eauto. Qed.
  Lemma links_nodes n x y : reachable n -> links n x y <> 0 -> In x (nodes n) /\ In y (nodes n).
  Proof.
    intros Hr Hl. destruct (reachable_R n Hr) as [g HR]. rewrite (links_R n g x y HR) in Hl. rewrite (labels_R n g HR).
    destruct (in_dec eqd x (labels g)); [|exfalso; apply Hl, mult_outside; [apply HR|auto]]. destruct (in_dec eqd y (labels g)); [auto|exfalso; apply Hl, mult_outside; [apply HR|auto]].
  Qed.
End Mult.
