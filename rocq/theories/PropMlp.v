(** Property theorem for demos/mlp (C101): four timesteps of the automaton are the forward pass of the perceptron. *)
From Verif Require Import Py PyFacts ListFacts Network NetworkSpec NetworkProofs NetworkProofs2 NetworkProofs3 TopologyProofs3 Evolve EvolveSpec EvolveProofs EvolveStatic DynRun TopoRun DemoNets Mlp NetMult.
Open Scope string_scope.
Open Scope list_scope.
Open Scope Z_scope.

(** ** Specification *)
Section Spec.
  Context {N : Type} (zero : N) (add mul : N -> N -> N).
  (** the sum of the products of two lists, from left to right *)
  Fixpoint dot_from (v : N) (row xs : list N) : N :=
    match row, xs with
    | w :: row', x :: xs' => dot_from (add v (mul w x)) row' xs'
    | _, _ => v
    end.
  Definition dot (row xs : list N) : N := dot_from zero row xs.
  (** a layer: one output per row of weights *)
  Definition layer (f : N -> N) (rows : list (list N)) (xs : list N) : list N := map (fun row => f (dot row xs)) rows.

  (** the list entry with index [z] *)
  Definition entry_at {A} (l : list A) (z : Z) : option A := if z <? 0 then None else nth_error l (Z.to_nat z).
  (** the entry for the edge from [i] to [j] in a dict of dicts *)
  Definition weight_in (ws : dict Z (dict Z N)) (i j : Z) : option N :=
    match dget ws i with Some r => dget r j | None => None end.
  (** the weights in force after those of [ws] have been set *)
  Definition after (ws : dict Z (dict Z N)) (w : Z -> Z -> N) (i j : Z) : N := match weight_in ws i j with Some a => a | None => w i j end.
  (** a dict has one entry per key *)
  Definition proper (ws : dict Z (dict Z N)) : Prop := NoDup (dkeys ws) /\ forall i r, In (i, r) ws -> NoDup (dkeys r).
  (** only edges of the network are mentioned *)
  Definition inside (n : Z) (ws : dict Z (dict Z N)) : Prop := forall i j a, weight_in ws i j = Some a -> 0 <= i < n /\ 0 <= j < n.

  (** the weighted sum of the activities [s] that reaches node [j] of [n] *)
  Definition reaching (n : Z) (w : Z -> Z -> N) (s : Z -> N) (j : Z) : N := fold_left (fun v i => add v (mul (w i j) (s i))) (zrange 0 n) zero.

  (** the weights after [k] timesteps: timestep [t] sets those of entry [t] of the table *)
  Fixpoint in_force (table : dict Z (dict Z (dict Z N))) (w0 : Z -> Z -> N) (k : nat) : Z -> Z -> N :=
    match k with
    | O => w0
    | S k' => after (match dget table (Z.of_nat k) with Some ws => ws | None => [] end) (in_force table w0 k')
    end.
  (** the activities after [k] timesteps, where timestep [t] applies the function of entry [t] *)
  Fixpoint signal (n : Z) (act : dict Z (N -> N)) (table : dict Z (dict Z (dict Z N))) (w0 : Z -> Z -> N) (s0 : Z -> N) (k : nat) (j : Z) : N :=
    match k with
    | O => s0 j
    | S k' => let v := reaching n (in_force table w0 k') (signal n act table w0 s0 k') j in
              match dget act (Z.of_nat k) with Some f => f v | None => v end
    end.
End Spec.

Section Proofs.
  Context {N : Type}.
  Notation network := (network Z N).
  Notation graph := (graph Z N).

  (** the network of all pairs below [n] with the weights [w] *)
  Definition cell (o : option N) : dict string N := match o with Some a => [("weight", a)] | None => [] end.
  Definition full_graph (n : Z) (w : Z -> Z -> option N) : graph :=
    mkG (map (fun v => (v, [])) (zrange 0 n)) (flat_map (fun i => map (fun j => (i, j, cell (w i j))) (zrange 0 n)) (zrange 0 n)).
  Definition weighted (n : Z) (w : Z -> Z -> option N) (m : network) : Prop := R m (full_graph n w) /\ net_rot m = None.

  Lemma full_labels n w : map fst (g_nodes (full_graph n w)) = zrange 0 n.
  Proof. cbn [full_graph g_nodes]. rewrite map_map. apply map_id. Qed.
  Lemma full_ext n w w' : (forall i j, 0 <= i < n -> 0 <= j < n -> w i j = w' i j) -> full_graph n w = full_graph n w'.
  Proof.
    intros He. unfold full_graph. f_equal. rewrite !flat_map_concat_map. f_equal. apply map_ext_in. intros i Hi. apply map_ext_in. intros j Hj.
    apply in_zrange in Hi, Hj. rewrite He by assumption. reflexivity.
  Qed.
  Lemma filter_one {A} (p : A -> bool) (l : list A) x : NoDup l -> In x l -> p x = true -> (forall y, In y l -> y <> x -> p y = false) -> filter p l = [x].
  Proof.
    induction l as [|y l IH]; intros Hnd Hin Hp Ho; [contradiction|]. inversion Hnd as [|? ? Hy Hnd']; subst. cbn [filter]. destruct Hin as [->|Hin].
    - rewrite Hp. f_equal. assert (Hz : forall z, In z l -> p z = false) by (intros z Hz; apply Ho; [right; assumption|intros ->; contradiction]).
      clear - Hz. induction l as [|z l IH]; [reflexivity|]. cbn [filter]. rewrite (Hz z (or_introl eq_refl)). apply IH. intros; apply Hz; right; assumption.
    - rewrite (Ho y (or_introl eq_refl)) by (intros ->; contradiction). apply IH; [assumption|assumption|assumption|]. intros z Hz. apply Ho. right. assumption.
  Qed.
  Lemma filter_none {A} (p : A -> bool) (l : list A) : (forall y, In y l -> p y = false) -> filter p l = [].
  Proof. induction l as [|z l IH]; intros Hz; [reflexivity|]. cbn [filter]. rewrite (Hz z (or_introl eq_refl)). apply IH. intros; apply Hz; right; assumption. Qed.
  Lemma filter_flat_map {A B} (p : B -> bool) (f : A -> list B) l : filter p (flat_map f l) = flat_map (fun x => filter p (f x)) l.
  Proof. induction l as [|x l IH]; [reflexivity|]. cbn [flat_map]. rewrite filter_app, IH. reflexivity. Qed.
  Lemma filter_map_comm {A B} (p : B -> bool) (f : A -> B) l : filter p (map f l) = map f (filter (fun x => p (f x)) l).
  Proof. induction l as [|x l IH]; [reflexivity|]. cbn [map filter]. destruct (p (f x)); cbn [map]; rewrite IH; reflexivity. Qed.
  Lemma flat_map_if {A B} `{EqD A} (l : list A) x (f : A -> list B) : NoDup l -> In x l -> (forall y, In y l -> y <> x -> f y = []) -> flat_map f l = f x.
  Proof.
    induction l as [|y l IH]; intros Hnd Hin Ho; [contradiction|]. inversion Hnd as [|? ? Hy Hnd']; subst. cbn [flat_map]. destruct Hin as [->|Hin].
    - rewrite (flat_map_nil f l); [apply app_nil_r|]. intros z Hz. apply Ho; [right; assumption|intros ->; contradiction].
    - rewrite (Ho y (or_introl eq_refl)) by (intros ->; contradiction). apply IH; [assumption|assumption|]. intros z Hz. apply Ho. right. assumption.
  Qed.

  Lemma full_between n w i j : 0 <= i < n -> 0 <= j < n -> between (full_graph n w) i j = [cell (w i j)].
  Proof.
    intros Hi Hj. unfold between. cbn [full_graph g_edges]. rewrite filter_flat_map.
    rewrite (flat_map_if _ i); [|apply NoDup_zrange|apply in_zrange; assumption|].
    - rewrite filter_map_comm. unfold src, tgt. cbn [fst snd]. rewrite eqb_refl. cbn [andb].
      rewrite (filter_one _ _ j); [reflexivity|apply NoDup_zrange|apply in_zrange; assumption|apply eqb_refl|]. intros y _ Hy. apply eqb_false. assumption.
    - intros y _ Hy. rewrite filter_map_comm. unfold src, tgt. cbn [fst snd]. rewrite (proj2 (eqb_false y i) Hy). rewrite filter_none; [reflexivity|reflexivity].
  Qed.
  Lemma full_outside n w i j : ~ (0 <= i < n /\ 0 <= j < n) -> between (full_graph n w) i j = [].
  Proof.
    intros Ho. unfold between. rewrite filter_none; [reflexivity|]. intros e He. cbn [full_graph g_edges] in He. apply in_flat_map in He. destruct He as (a & Ha & He). apply in_map_iff in He. destruct He as (b & <- & Hb).
    apply in_zrange in Ha, Hb. unfold src, tgt. cbn [fst snd]. destruct (eqb_spec a i) as [->|]; [|reflexivity]. destruct (eqb_spec b j) as [->|]; [|reflexivity]. exfalso. apply Ho. auto.
  Qed.
  Lemma full_into n w j : 0 <= j < n -> map src (edges_into (full_graph n w) j) = zrange 0 n.
  Proof.
    intros Hj. unfold edges_into. cbn [full_graph g_edges]. rewrite filter_flat_map. generalize (zrange 0 n) at 2 3 as l.
    induction l as [|i l IH]; [reflexivity|]. cbn [flat_map]. rewrite map_app, IH. rewrite filter_map_comm. unfold tgt. cbn [fst snd].
    rewrite (filter_one _ _ j); [reflexivity|apply NoDup_zrange|apply in_zrange; assumption|apply eqb_refl|]. intros y _ Hy. apply eqb_false. assumption.
  Qed.
  Lemma dedup_NoDup (l : list Z) : NoDup l -> dedup l = l.
  Proof.
    induction 1 as [|x l Hx Hnd IH]; [reflexivity|]. cbn [dedup]. rewrite IH. f_equal. clear - Hx. induction l as [|y l IH]; [reflexivity|]. cbn [filter].
    rewrite (proj2 (eqb_false x y)) by (intros ->; apply Hx; left; reflexivity). cbn [negb]. f_equal. apply IH. intros Hi. apply Hx. right. assumption.
  Qed.
  Lemma full_neighbours n w j : 0 <= j < n -> in_neighbours (full_graph n w) j = zrange 0 n.
  Proof. intros Hj. unfold in_neighbours. rewrite full_into by assumption. apply dedup_NoDup, NoDup_zrange. Qed.

  (** *** building it *)
  Lemma ensure_in (g : graph) v : In v (map fst (g_nodes g)) -> ensure_node g v = g.
  Proof. apply ensure_node_id. Qed.

  Lemma add_row i js : forall (m : network) g, R m g -> In i (map fst (g_nodes g)) -> incl js (map fst (g_nodes g)) ->
    exists m', mfor js (fun j => add_edge i j []) m = (m', Ok tt) /\ R m' (mkG (g_nodes g) (g_edges g ++ map (fun j => (i, j, [])) js)) /\ net_rot m' = net_rot m.
  Proof.
    induction js as [|j js IH]; intros m g HR Hi Hjs.
    - exists m. split; [reflexivity|]. split; [|reflexivity]. cbn [map]. rewrite app_nil_r. destruct g. exact HR.
    - cbn [mfor]. destruct (add_edge_R m g i j [] HR eq_refl) as (m1 & E1 & R1 & Q1). rewrite (mthen_ok _ _ _ _ E1).
      unfold spec_add_edge in R1. rewrite (ensure_in g i Hi), (ensure_in g j) in R1 by (apply Hjs; left; reflexivity).
      destruct (IH m1 _ R1 Hi) as (m2 & E2 & R2 & Q2); [intros y Hy; apply Hjs; right; assumption|].
      exists m2. split; [assumption|]. split; [|congruence]. cbn [g_nodes g_edges map] in R2 |- *. rewrite <- app_assoc in R2. exact R2.
  Qed.
  Lemma add_rows n is : forall (m : network) g, R m g -> map fst (g_nodes g) = zrange 0 n -> incl is (zrange 0 n) ->
    exists m', mfor is (fun i => mfor (zrange 0 n) (fun j => add_edge i j [])) m = (m', Ok tt) /\
      R m' (mkG (g_nodes g) (g_edges g ++ flat_map (fun i => map (fun j => (i, j, [])) (zrange 0 n)) is)) /\ net_rot m' = net_rot m.
  Proof.
    induction is as [|i is IH]; intros m g HR Hn His.
    - exists m. split; [reflexivity|]. split; [|reflexivity]. cbn [flat_map]. rewrite app_nil_r. destruct g. exact HR.
    - cbn [mfor]. destruct (add_row i (zrange 0 n) m g HR) as (m1 & E1 & R1 & Q1); [rewrite Hn; apply His; left; reflexivity|rewrite Hn; apply incl_refl|].
      rewrite (mthen_ok _ _ _ _ E1). destruct (IH m1 _ R1 Hn) as (m2 & E2 & R2 & Q2); [intros y Hy; apply His; right; assumption|].
      exists m2. split; [assumption|]. split; [|congruence]. cbn [g_nodes g_edges flat_map] in R2 |- *. rewrite <- app_assoc in R2. exact R2.
  Qed.
  Lemma first_row k : (1 <= k)%nat -> exists m : network, mfor (zrange 0 (Z.of_nat k)) (fun j => add_edge 0 j []) empty_network = (m, Ok tt) /\
    R m (mkG (map (fun v => (v, [])) (zrange 0 (Z.of_nat k))) (map (fun j => (0, j, [])) (zrange 0 (Z.of_nat k)))) /\ net_rot m = None.
  Proof.
    induction k as [|k IH]; intros Hk; [lia|]. destruct k as [|k].
    - change (zrange 0 (Z.of_nat 1)) with [0]. cbn [mfor]. destruct (add_edge_R (empty_network (L:=Z) (V:=N)) empty_graph 0 0 [] R_empty eq_refl) as (m & E & Rm & Q).
      exists m. rewrite (mthen_ok _ _ _ _ E). split; [reflexivity|]. split; [exact Rm|exact Q].
    - destruct IH as (m & E & Rm & Q); [lia|]. set (K := Z.of_nat (S k)) in *. replace (Z.of_nat (S (S k))) with (K + 1) by (subst K; lia).
      assert (Ez : zrange 0 (K + 1) = zrange 0 K ++ [K]) by (rewrite zrange_snoc by (subst K; lia); replace (K + 1 - 1) with K by lia; reflexivity).
      rewrite Ez. rewrite mfor_app. unfold mthen at 1, mbind at 1. rewrite E. cbn [mfor].
      destruct (add_edge_R m _ 0 K [] Rm eq_refl) as (m1 & E1 & R1 & Q1). exists m1. rewrite (mthen_ok _ _ _ _ E1). split; [reflexivity|]. split; [|congruence].
      unfold spec_add_edge in R1. assert (El : map fst (map (fun v => (v, []:dict string N)) (zrange 0 K)) = zrange 0 K) by (rewrite map_map; apply map_id).
      rewrite (ensure_in _ 0) in R1 by (cbn [g_nodes]; rewrite El; apply in_zrange; subst K; lia).
      unfold ensure_node in R1. assert (Eb : is_nodeb (mkG (map (fun v => (v, []:dict string N)) (zrange 0 K)) (map (fun j => (0, j, []:dict string N)) (zrange 0 K))) K = false).
      { destruct (is_nodeb _ K) eqn:Eb; [|reflexivity]. apply is_nodeb_true in Eb. unfold is_node in Eb. cbn [g_nodes] in Eb. rewrite El, in_zrange in Eb. lia. }
      rewrite Eb in R1. cbn [g_nodes g_edges] in R1. rewrite !map_app. exact R1.
  Qed.
  Lemma all_pairs n : 1 <= n -> exists m : network, mfor (zrange 0 n) (fun i => mfor (zrange 0 n) (fun j => add_edge i j [])) empty_network = (m, Ok tt) /\ weighted n (fun _ _ => None) m.
  Proof.
    intros Hn. destruct (first_row (Z.to_nat n)) as (m & E & Rm & Q); [lia|]. rewrite Z2Nat.id in * by lia.
    destruct (add_rows n (zrange 1 n) m _ Rm) as (m' & E' & R' & Q'); [cbn [g_nodes]; rewrite map_map; apply map_id|intros y; rewrite !in_zrange; lia|].
    exists m'. rewrite (zrange_cons 0 n) at 1 by lia. cbn [mfor]. rewrite (mthen_ok _ _ _ _ E). split; [exact E'|]. split; [|congruence].
    unfold full_graph. cbn [g_nodes g_edges cell] in *. set (F := fun i => map (fun j => (i, j, []:dict string N)) (zrange 0 n)) in *.
    assert (EF : flat_map F (zrange 0 n) = F 0 ++ flat_map F (zrange 1 n)) by (rewrite (zrange_cons 0 n) by lia; reflexivity). rewrite EF. exact R'.
  Qed.

  (** *** setting weights *)
  Lemma full_update n w i j a : spec_update_all (full_graph n w) i j [("weight", a)] = full_graph n (fun i' j' => if (i' =? i) && (j' =? j) then Some a else w i' j').
  Proof.
    unfold spec_update_all, full_graph. cbn [g_nodes g_edges]. f_equal. rewrite !flat_map_concat_map, concat_map, map_map. f_equal. apply map_ext. intros i'. rewrite map_map. apply map_ext. intros j'.
    unfold src, tgt, dat. cbn [fst snd]. destruct (eqb_spec i' i) as [->|Hi]; [destruct (eqb_spec j' j) as [->|Hj]|].
    - rewrite !Z.eqb_refl. cbn [andb]. destruct (w i j); reflexivity.
    - rewrite (proj2 (Z.eqb_neq j' j) Hj), !andb_false_r. reflexivity.
    - rewrite (proj2 (Z.eqb_neq i' i) Hi). reflexivity.
  Qed.
  Definition over (o : option N) (p : option N) : option N := match o with Some a => Some a | None => p end.

  Lemma set_row n i row : NoDup (dkeys row) -> (row <> [] -> 0 <= i < n) -> (forall j, In j (dkeys row) -> 0 <= j < n) -> forall w (m : network), weighted n w m ->
    exists m', mfor row (fun jw => update_edge i (fst jw) None [("weight", snd jw)]) m = (m', Ok tt) /\ weighted n (fun i' j' => if i' =? i then over (dget row j') (w i' j') else w i' j') m'.
  Proof.
    induction row as [|[j a] row IH]; intros Hnd Hi Hj w m [HR Hq].
    - exists m. split; [reflexivity|]. split; [|assumption]. erewrite full_ext; [exact HR|]. intros i' j' _ _. cbn. destruct (i' =? i); reflexivity.
    - assert (Hi' := Hi ltac:(discriminate)). assert (Hj' := Hj j (or_introl eq_refl)). cbn [mfor fst snd].
      destruct (update_all_R m _ i j [("weight", a)] HR) as (m1 & E1 & R1 & Q1); [rewrite full_between by assumption; discriminate|reflexivity|].
      rewrite (mthen_ok _ _ _ _ E1). rewrite full_update in R1. cbn [dkeys map fst] in Hnd. inversion Hnd as [|? ? Hn1 Hn2]; subst.
      destruct (IH Hn2 (fun _ => Hi') (fun j0 Hj0 => Hj j0 (or_intror Hj0)) _ m1 (conj R1 (eq_trans Q1 Hq))) as (m2 & E2 & [R2 Q2]).
      exists m2. split; [assumption|]. split; [|assumption]. erewrite full_ext; [exact R2|]. intros i' j' _ _. cbn [dget]. destruct (Z.eqb_spec i' i) as [->|]; cbn [andb]; [|reflexivity].
      destruct (eqd j' j) as [->|Hjj].
      + rewrite Z.eqb_refl. assert (En : dget row j = None) by (apply dget_none; assumption). rewrite En. reflexivity.
      + rewrite (proj2 (Z.eqb_neq j' j) Hjj). reflexivity.
  Qed.

  Lemma weight_in_cons i r ws i' j' : weight_in ((i, r) :: ws) i' j' = if i' =? i then dget r j' else weight_in (N:=N) ws i' j'.
  Proof. unfold weight_in. cbn [dget]. destruct (eqd i' i) as [->|Hn]; [rewrite Z.eqb_refl; reflexivity|]. rewrite (proj2 (Z.eqb_neq i' i) Hn). reflexivity. Qed.

  Lemma set_ok n ws : proper ws -> inside n ws -> forall w (m : network), weighted n w m ->
    exists m', set_weights ws m = (m', Ok tt) /\ weighted n (fun i j => over (weight_in ws i j) (w i j)) m'.
  Proof.
    unfold set_weights. induction ws as [|[i r] ws IH]; intros [Hk Hr] Hin w m Hm.
    - exists m. split; [reflexivity|exact Hm].
    - cbn [dkeys map fst] in Hk. inversion Hk as [|? ? Hk1 Hk2]; subst. cbn [mfor fst snd].
      assert (Hrow : forall j a, dget r j = Some a -> 0 <= i < n /\ 0 <= j < n) by (intros j a E; apply (Hin i j a); rewrite weight_in_cons, Z.eqb_refl; exact E).
      assert (Hrn := Hr i r (or_introl eq_refl)).
      destruct (set_row n i r Hrn) with (w := w) (m := m) as (m1 & E1 & W1); [| |exact Hm|].
      + destruct r as [|[j a] r']; [congruence|]. intros _. apply (Hrow j a). cbn. destruct (eqd j j); [reflexivity|congruence].
      + intros j Hj. destruct (dget_key_some r j Hj) as [a Ea]. apply (Hrow j a Ea).
      + rewrite (mthen_ok _ _ _ _ E1). assert (Hni : weight_in ws i = fun _ => None) by (unfold weight_in; assert (E : dget ws i = None) by (apply dget_none; exact Hk1); rewrite E; reflexivity).
        destruct (IH (conj Hk2 (fun i0 r0 H0 => Hr i0 r0 (or_intror H0)))) with (w := fun i' j' => if i' =? i then over (dget r j') (w i' j') else w i' j') (m := m1) as (m2 & E2 & [R2 Q2]); [|exact W1|].
        * intros i' j' a E. apply (Hin i' j' a). rewrite weight_in_cons. destruct (Z.eqb_spec i' i) as [->|]; [|exact E]. rewrite Hni in E. discriminate.
        * exists m2. split; [exact E2|]. split; [|exact Q2]. erewrite full_ext; [exact R2|]. intros i' j' _ _. rewrite weight_in_cons. destruct (Z.eqb_spec i' i) as [->|]; [|reflexivity]. rewrite Hni. cbn. reflexivity.
  Qed.

  Lemma set_unknown : forall n ws i r j a w (m : network), weighted n w m -> In (i, r) ws -> In (j, a) r -> ~ (0 <= i < n /\ 0 <= j < n) ->
    snd (set_weights ws m) = Err (Raise "edge does not exist").
  Proof.
    intros n ws i r j a w m Hm Hir Hja Ho.
    assert (Hone : forall i j a w (m : network), weighted n w m ->
      (0 <= i < n /\ 0 <= j < n /\ exists m' w', update_edge i j None [("weight", a)] m = (m', Ok tt) /\ weighted n w' m') \/
      snd (update_edge i j None [("weight", a)] m) = Err (Raise "edge does not exist")).
    { clear. intros i j a w m [HR Hq]. destruct (between (full_graph n w) i j) as [|x l] eqn:Eb.
      - right. unfold update_edge. change (kwargs_clash _ _) with false. cbv beta iota. rewrite (has_edge_R _ _ _ _ HR), Eb. reflexivity.
      - left. assert (Hr : 0 <= i < n /\ 0 <= j < n).
        { destruct (Z_le_dec 0 i), (Z_lt_dec i n), (Z_le_dec 0 j), (Z_lt_dec j n); try (rewrite full_outside in Eb by lia; discriminate). lia. }
        split; [lia|]. split; [lia|]. destruct (update_all_R m _ i j [("weight", a)] HR) as (m1 & E1 & R1 & Q1); [rewrite Eb; discriminate|reflexivity|].
        rewrite full_update in R1. eexists m1, _. split; [exact E1|]. split; [exact R1|congruence]. }
    assert (Hrow : forall i row w (m : network), weighted n w m ->
      ((forall j a, In (j, a) row -> 0 <= i < n /\ 0 <= j < n) /\ exists m' w', mfor row (fun jw => update_edge i (fst jw) None [("weight", snd jw)]) m = (m', Ok tt) /\ weighted n w' m') \/
      snd (mfor row (fun jw => update_edge i (fst jw) None [("weight", snd jw)]) m) = Err (Raise "edge does not exist")).
    { clear - Hone. intros i row. induction row as [|[j a] row IH]; intros w m Hm.
      - left. split; [intros j a []|]. exists m, w. split; [reflexivity|exact Hm].
      - cbn [mfor fst snd]. destruct (Hone i j a w m Hm) as [(Hi & Hj & m1 & w1 & E1 & W1)|E1].
        + rewrite (mthen_ok _ _ _ _ E1). destruct (IH w1 m1 W1) as [[Hin Hex]|E2]; [left|right; exact E2]. split; [|exact Hex]. intros j0 a0 [E|Hin0]; [injection E as <- <-; auto|apply (Hin j0 a0 Hin0)].
        + right. unfold mthen, mbind. destruct (update_edge i j None [("weight", a)] m) as [m1 r1]. cbn [snd] in E1. rewrite E1. reflexivity. }
    unfold set_weights. revert w m Hm. induction ws as [|[i' r'] ws IH]; intros w m Hm; [contradiction|]. cbn [mfor fst snd].
    destruct (Hrow i' r' w m Hm) as [(Hin & m1 & w1 & E1 & W1)|E1].
    - rewrite (mthen_ok _ _ _ _ E1). destruct Hir as [E|Hir]; [injection E as -> ->; exfalso; apply Ho; apply (Hin j a Hja)|]. exact (IH Hir w1 m1 W1).
    - unfold mthen, mbind. destruct (mfor r' _ m) as [m1 r1]. cbn [snd] in E1. rewrite E1. reflexivity.
  Qed.

  (** A weight for an edge that does not exist is an error, whatever the other entries are. *)
  Theorem C101_unknown_edge : forall n (ws : dict Z (dict Z N)) i r j a, 1 <= n -> In (i, r) ws -> In (j, a) r -> ~ (0 <= i < n /\ 0 <= j < n) ->
    snd (mlp_network n ws) = Err (Raise "edge does not exist").
  Proof.
    intros n ws i r j a Hn Hir Hja Ho. destruct (all_pairs n Hn) as (m & E & Hw). unfold mlp_network. rewrite (mthen_ok _ _ _ _ E). exact (set_unknown n ws i r j a _ m Hw Hir Hja Ho).
  Qed.

  (** *** the files *)
  Lemma entry_cons {A} (x : A) l z : entry_at (x :: l) z = if z =? 0 then Some x else entry_at l (z - 1).
  Proof.
    unfold entry_at. destruct (Z.eqb_spec z 0) as [->|Hz]; [reflexivity|]. destruct (Z.ltb_spec z 0), (Z.ltb_spec (z - 1) 0); try lia; [reflexivity|].
    replace (Z.to_nat z) with (S (Z.to_nat (z - 1))) by lia. reflexivity.
  Qed.
  Lemma entry_nil {A} z : entry_at (A:=A) [] z = None.
  Proof. unfold entry_at. destruct (z <? 0); [reflexivity|]. destruct (Z.to_nat z); reflexivity. Qed.
  Lemma entry_neg {A} (l : list A) z : z < 0 -> entry_at l z = None.
  Proof. intros Hz. unfold entry_at. destruct (Z.ltb_spec z 0); [reflexivity|lia]. Qed.
  Lemma entry_some {A} (l : list A) z x : entry_at l z = Some x -> 0 <= z < Z.of_nat (length l) /\ nth_error l (Z.to_nat z) = Some x.
  Proof. unfold entry_at. destruct (Z.ltb_spec z 0); [discriminate|]. intros E. split; [|exact E]. assert (Hl : nth_error l (Z.to_nat z) <> None) by congruence. apply nth_error_Some in Hl. lia. Qed.

  Lemma weight_put ws a b (x : N) i j : weight_in (put_weight ws a b x) i j = if (i =? a) && (j =? b) then Some x else weight_in ws i j.
  Proof.
    unfold put_weight, weight_in. rewrite dget_dset. destruct (eqd i a) as [->|Hi].
    - rewrite Z.eqb_refl. cbn [andb]. rewrite dget_dset. destruct (eqd j b) as [->|Hj]; [rewrite Z.eqb_refl; reflexivity|]. rewrite (proj2 (Z.eqb_neq j b) Hj). destruct (dget ws a); reflexivity.
    - rewrite (proj2 (Z.eqb_neq i a) Hi). reflexivity.
  Qed.
  Lemma proper_put ws a b (x : N) : proper ws -> proper (put_weight ws a b x).
  Proof.
    intros [H1 H2]. unfold put_weight. split; [apply NoDup_dset; assumption|]. intros i r Hin. apply dget_in in Hin; [|apply NoDup_dset; assumption]. rewrite dget_dset in Hin. destruct (eqd i a) as [->|Hi].
    - injection Hin as <-. apply NoDup_dset. destruct (dget ws a) as [r0|] eqn:E; [|constructor]. apply (H2 a). apply dget_some_in. assumption.
    - apply (H2 i). apply dget_some_in. assumption.
  Qed.
  Lemma read_line b (line : list N) : forall s ws, proper ws ->
    let ws' := fold_left (fun ws jw => put_weight ws (Z.of_nat (fst jw)) b (snd jw)) (combine (seq s (length line)) line) ws in
    proper ws' /\ forall i j, weight_in ws' i j = if j =? b then over (entry_at line (i - Z.of_nat s)) (weight_in ws i j) else weight_in ws i j.
  Proof.
    induction line as [|x line IH]; intros s ws Hp; cbn [length seq combine fold_left fst snd].
    - split; [assumption|]. intros i j. rewrite entry_nil. destruct (j =? b); reflexivity.
    - destruct (IH (S s) _ (proper_put ws (Z.of_nat s) b x Hp)) as [H1 H2]. split; [exact H1|]. intros i j. rewrite H2, weight_put, entry_cons. destruct (j =? b) eqn:Ej; [|rewrite andb_false_r; reflexivity].
      rewrite andb_true_r. replace (i - Z.of_nat s - 1) with (i - Z.of_nat (S s)) by lia. destruct (Z.eqb_spec i (Z.of_nat s)) as [->|Hi].
      + rewrite entry_neg by lia. rewrite Z.sub_diag. reflexivity.
      + destruct (Z.eqb_spec (i - Z.of_nat s) 0); [lia|]. reflexivity.
  Qed.
  (** reading a file of weights: line [j], column [i] is the weight of the edge from [i] to [j] *)
  Theorem C101_read_weights : forall rows : list (list N), proper (read_weights rows) /\
    forall i j, weight_in (read_weights rows) i j = match entry_at rows j with Some row => entry_at row i | None => None end.
  Proof.
    intros rows. unfold read_weights, enumerate.
    enough (Hg : forall s ws, proper ws ->
      let ws' := fold_left (fun ws il => fold_left (fun ws jw => put_weight ws (Z.of_nat (fst jw)) (Z.of_nat (fst il)) (snd jw)) (enumerate (snd il)) ws) (combine (seq s (length rows)) rows) ws in
      proper ws' /\ forall i j, weight_in ws' i j = over (match entry_at rows (j - Z.of_nat s) with Some row => entry_at row i | None => None end) (weight_in ws i j)).
    { destruct (Hg 0%nat []) as [H1 H2]; [split; [constructor|intros i r []]|]. split; [exact H1|]. intros i j. rewrite H2. rewrite Z.sub_0_r. destruct (entry_at rows j) as [row|]; [destruct (entry_at row i)|]; reflexivity. }
    induction rows as [|line rows IH]; intros s ws Hp; cbn [length seq combine fold_left fst snd].
    - split; [assumption|]. intros i j. rewrite entry_nil. reflexivity.
    - unfold enumerate at 2. destruct (read_line (Z.of_nat s) line 0 ws Hp) as [H1 H2]. destruct (IH (S s) _ H1) as [H3 H4]. split; [exact H3|].
      intros i j. rewrite H4, H2, entry_cons. rewrite Z.sub_0_r. replace (j - Z.of_nat s - 1) with (j - Z.of_nat (S s)) by lia. destruct (Z.eqb_spec j (Z.of_nat s)) as [->|Hj].
      + rewrite (entry_neg rows) by lia. rewrite Z.sub_diag. reflexivity.
      + destruct (Z.eqb_spec (j - Z.of_nat s) 0); [lia|]. reflexivity.
  Qed.

  Lemma read_cells (line : list N) : forall d k, (forall v, In v (dkeys d) -> v < k) ->
    fold_left (fun s a => (dset (fst s) (snd s) a, snd s + 1)) line (d, k) = (d ++ combine (zrange k (k + Z.of_nat (length line))) line, k + Z.of_nat (length line)).
  Proof.
    induction line as [|a line IH]; intros d k Hd.
    - cbn. rewrite zrange_nil, app_nil_r, Z.add_0_r by lia. reflexivity.
    - cbn [fold_left fst snd length]. assert (Hn : ~ In k (dkeys d)) by (intros Hk; specialize (Hd k Hk); lia). rewrite (dset_new d k a Hn), IH.
      + rewrite (zrange_cons k) by lia. cbn [combine]. rewrite <- app_assoc. replace (k + 1 + Z.of_nat (length line)) with (k + Z.of_nat (S (length line))) by lia. reflexivity.
      + intros v Hv. unfold dkeys in Hv. rewrite map_app, in_app_iff in Hv. destruct Hv as [Hv|[<-|[]]]; [specialize (Hd v Hv); lia|cbn; lia].
  Qed.
  Lemma combine_app {A B} (l1 l1' : list A) (l2 l2' : list B) : length l1 = length l2 -> combine (l1 ++ l1') (l2 ++ l2') = combine l1 l2 ++ combine l1' l2'.
  Proof. revert l2. induction l1 as [|x l1 IH]; intros [|y l2] E; try discriminate; [reflexivity|]. injection E as E. cbn. rewrite IH by assumption. reflexivity. Qed.
  (** reading an image: its pixels in reading order *)
  Theorem C101_read_image : forall rows : list (list N), read_image rows = combine (zrange 0 (Z.of_nat (length (concat rows)))) (concat rows).
  Proof.
    intros rows. unfold read_image.
    enough (Hg : forall d k, (forall v, In v (dkeys d) -> v < k) -> fst (fold_left (fun s line => fold_left (fun s a => (dset (fst s) (snd s) a, snd s + 1)) line s) rows (d, k))
      = d ++ combine (zrange k (k + Z.of_nat (length (concat rows)))) (concat rows)) by (apply (Hg [] 0); intros v []).
    induction rows as [|line rows IH]; intros d k Hd; [cbn; rewrite zrange_nil, app_nil_r by lia; reflexivity|]. cbn [fold_left concat]. rewrite (read_cells line d k Hd), IH.
    - rewrite <- app_assoc, <- combine_app by (rewrite length_zrange; lia). rewrite app_length. rewrite <- zrange_split by lia. rewrite Nat2Z.inj_add, Z.add_assoc. reflexivity.
    - intros v Hv. unfold dkeys in Hv. rewrite map_app, in_app_iff in Hv. destruct Hv as [Hv|Hv]; [specialize (Hd v Hv); lia|]. apply in_map_iff in Hv. destruct Hv as ([v' a] & <- & Hv). apply in_combine_l, in_zrange in Hv. cbn. lia.
  Qed.

  Lemma weighted_edges n w (m : network) v : weighted n w m -> 0 <= v < n -> in_edges m v = Ok (map (fun i => (i, [cell (w i v)])) (zrange 0 n)).
  Proof.
    intros [HR _] Hv. rewrite (in_edges_R _ _ v HR). assert (Hb : is_nodeb (full_graph n w) v = true) by (apply is_nodeb_true; unfold is_node; rewrite full_labels; apply in_zrange; assumption).
    rewrite Hb, full_neighbours by assumption. f_equal. apply map_ext_in. intros i Hi. apply in_zrange in Hi. rewrite full_between by assumption. reflexivity.
  Qed.
  Lemma weighted_nodes n w (m : network) : weighted n w m -> nodes m = zrange 0 n.
  Proof. intros [HR _]. rewrite (nodes_R _ _ HR). apply full_labels. Qed.
  Lemma rfold_fold {A B} (f : B -> A -> res B) (h : B -> A -> B) l : (forall s x, In x l -> f s x = Ok (h s x)) -> forall s, rfold f l s = Ok (fold_left h l s).
  Proof. induction l as [|x l IH]; intros Hf s; [reflexivity|]. cbn [rfold fold_left]. rewrite (Hf s x (or_introl eq_refl)). cbn [rbind]. apply IH. intros; apply Hf; right; assumption. Qed.

  Section Run.
    Context (zero : N) (add mul : N -> N -> N).
    Context {U I BA BN : Type} `{EqD N} (W : env Z N N BA BN).

    Lemma rule_value n w (m : network) S s t past inp v (x : node_ctx Z N N I) act f : weighted n (fun i j => Some (w i j)) m -> (forall i, 0 <= i < n -> dget S i = Some (s i)) ->
      0 <= v < n -> ctx_for W m S t past inp v x -> dget act t = Some f -> mlp_rule zero add mul act x = Ok (f (reaching zero add mul n w s v)).
    Proof.
      intros Hw HS Hv Hx Hf. assert (Ei := weighted_edges n _ m v Hw Hv). assert (Hc := cf_conn _ _ _ _ _ _ _ _ Hx). rewrite Ei in Hc. injection Hc as Hc.
      assert (Hn := cf_nbrs _ _ _ _ _ _ _ _ Hx). unfold nbrs_of in Hn. rewrite (proj2 Hw) in Hn. destruct Hn as (inc & Einc & Hn). rewrite Ei in Einc. injection Einc as <-.
      rewrite map_map in Hn. cbn [fst] in Hn. rewrite map_id in Hn.
      unfold mlp_rule. rewrite Hn, (rfold_fold _ (fun v0 i => add v0 (mul (w i v) (s i)))).
      - cbn [rbind]. rewrite (cf_time _ _ _ _ _ _ _ _ Hx), Hf. reflexivity.
      - intros a i Hi. unfold edge_data. rewrite <- Hc, (dget_mapkey (fun i => [cell (Some (w i v))])). destruct (in_dec eqd i (zrange 0 n)) as [_|Hni]; [|contradiction]. cbn [of_opt rbind].
        rewrite (cf_acts _ _ _ _ _ _ _ _ Hx), HS by (apply in_zrange; assumption). reflexivity.
    Qed.

    Lemma closed_weighted n w (m : network) : weighted n w m -> closed m.
    Proof.
      intros Hw v Hv. rewrite (weighted_nodes _ _ _ Hw) in Hv. apply in_zrange in Hv. assert (Ei := weighted_edges n _ m v Hw Hv). eexists _, (zrange 0 n). split; [exact Ei|]. split.
      - unfold nbrs_of. rewrite (proj2 Hw). eexists. split; [exact Ei|]. rewrite map_map. symmetry. apply map_id.
      - intros u Hu. rewrite (weighted_nodes _ _ _ Hw). exact Hu.
    Qed.

    (** The general run: any number of nodes and timesteps, any tables. *)
    Theorem C101_run : forall fuel (g : @args Z N N U I) u0 n ws w0 (m : network) act table c s0 T,
      1 <= n -> proper ws -> inside n ws -> (forall i j, 0 <= i < n -> 0 <= j < n -> weight_in ws i j = Some (w0 i j)) -> mlp_network n ws = (m, Ok tt) ->
      acts_first g (mlp_rule zero add mul act) (mlp_topology table) -> 1 <= T -> (Z.to_nat T <= fuel)%nat ->
      length (to_dict W c) = net_len m -> (forall j, 0 <= j < n -> dget (to_dict W c) j = Some (s0 j)) ->
      (forall t, 1 <= t < T -> (exists f, dget act t = Some f) /\ exists wt, dget table t = Some wt /\ proper wt /\ inside n wt) ->
      exists traj hs, evolve W fuel u0 m (Some c) (Some T) None g = Ok (u0, traj) /\ Z.of_nat (length hs) = T /\
        Forall2 (fun s Sm => activities W s = Ok (shown_acts (fst Sm)) /\ state_network W s = Ok (shown_net (snd Sm))) traj hs /\
        nth_error hs 0 = Some (to_dict W c, m) /\
        forall k S m', nth_error hs k = Some (S, m') -> nodes m' = zrange 0 n /\
          (forall j, 0 <= j < n -> dget S j = Some (signal zero add mul n act table w0 s0 k j)) /\
          (forall i j, 0 <= i < n -> 0 <= j < n -> edge m' i j = Ok [[("weight", in_force table w0 k i j)]]).
    Proof.
      intros fuel g u0 n ws w0 m act table c s0 T Hn Hpw Hiw Hw0 Em Hg HT Hfuel Hlen Hs0 Htab.
      assert (Hm : weighted n (fun i j => Some (w0 i j)) m).
      { destruct (all_pairs n Hn) as (m1 & E1 & W1). destruct (set_ok n ws Hpw Hiw _ m1 W1) as (m2 & E2 & [R2 Q2]). unfold mlp_network in Em. rewrite (mthen_ok _ _ _ _ E1), E2 in Em. injection Em as <-.
        split; [|exact Q2]. erewrite full_ext; [exact R2|]. intros i j Hi Hj. cbv beta. rewrite Hw0 by assumption. reflexivity. }
      destruct (dyn_run W fuel u0 m c T g (mlp_rule zero add mul act) (mlp_topology table) (fun k S m' => weighted n (fun i j => Some (in_force table w0 k i j)) m' /\ forall j, 0 <= j < n -> dget S j = Some (signal zero add mul n act table w0 s0 k j)) Hg HT Hfuel Hlen)
        as (traj & hs & E & Hl & Hf & H0 & HP).
      - split; [exact Hm|exact Hs0].
      - intros k S m' Hk [Hwk HS]. destruct (Htab (Z.of_nat k + 1)) as ((f & Ef) & wt & Et & Hpt & Hit); [lia|]. assert (En := weighted_nodes _ _ _ Hwk).
        replace (Z.of_nat k + 1) with (Z.of_nat (Datatypes.S k)) in * by lia.
        split; [rewrite En; apply NoDup_zrange|]. split; [exact (closed_weighted _ _ _ Hwk)|].
        split; [intros v Hv; rewrite En, in_zrange in Hv; eexists; apply HS; assumption|].
        assert (Hrule : forall v (x : node_ctx Z N N I), In v (nodes m') -> ctx_for W m' S (Z.of_nat (Datatypes.S k)) None (InStr "__timestep__") v x -> mlp_rule zero add mul act x = Ok (signal zero add mul n act table w0 s0 (Datatypes.S k) v)).
        { intros v x Hv Hx. rewrite En, in_zrange in Hv. rewrite (rule_value n _ m' S _ _ _ _ v x act f Hwk HS Hv Hx Ef). cbn [signal]. rewrite Ef. reflexivity. }
        split; [intros v x Hv Hx; eexists; exact (Hrule v x Hv Hx)|].
        intros S' Hcov [Hkeys Hupd].
        assert (Hgv : weighted n (fun i j => Some (in_force table w0 k i j)) (given g m')).
        { unfold given. destruct (g_copy g); [|exact Hwk]. split; [|reflexivity]. apply copy_R. exact (proj1 Hwk). }
        destruct (set_ok n wt Hpt Hit _ _ Hgv) as (m2 & E2 & [R2 Q2]). exists m2.
        assert (W2 : weighted n (fun i j => Some (in_force table w0 (Datatypes.S k) i j)) m2).
        { split; [|exact Q2]. erewrite full_ext; [exact R2|]. intros i j _ _. cbn [in_force]. rewrite Et. unfold after, over. destruct (weight_in wt i j); reflexivity. }
        split; [unfold mlp_topology; rewrite Et; cbn [of_opt rbind]; rewrite E2; reflexivity|].
        split; [intros E0; assert (En2 := weighted_nodes _ _ _ W2); unfold nodes in En2; rewrite E0, (zrange_cons 0 n) in En2 by lia; discriminate|]. split; [exact W2|].
        intros j Hj. destruct (Hupd j) as (x & a & a' & Hx & Ha & -> & Ed); [rewrite En; apply in_zrange; assumption|]. rewrite (Hrule j x) in Ha; [injection Ha as <-; exact Ed|rewrite En; apply in_zrange; assumption|exact Hx].
      - exists traj, hs. split; [exact E|]. split; [exact Hl|]. split; [exact Hf|]. split; [exact H0|]. intros k S m' Ek. destruct (HP k S m' Ek) as [Hw HS]. split; [exact (weighted_nodes _ _ _ Hw)|]. split; [exact HS|].
        intros i j Hi Hj. rewrite (edge_R _ _ i j (proj1 Hw)), full_between by assumption. reflexivity.
    Qed.

    (** *** the forward pass *)
    Lemma dot_reach (row : list N) : forall (w s : Z -> N) xs k v, (forall i, (i < length row)%nat -> nth_error row i = Some (w (k + Z.of_nat i))) -> length xs = length row ->
      (forall i, (i < length row)%nat -> nth_error xs i = Some (s (k + Z.of_nat i))) ->
      fold_left (fun v i => add v (mul (w i) (s i))) (zrange k (k + Z.of_nat (length row))) v = dot_from add mul v row xs.
    Proof.
      induction row as [|a row IH]; intros w s xs k v Hr Hl Hx; [cbn; rewrite zrange_nil by lia; destruct xs; [reflexivity|discriminate]|].
      destruct xs as [|x xs]; [discriminate|]. injection Hl as Hl. cbn [length] in *. rewrite zrange_cons by lia. cbn [fold_left dot_from].
      assert (E1 := Hr 0%nat ltac:(lia)). assert (E2 := Hx 0%nat ltac:(lia)). cbn [nth_error] in E1, E2. rewrite Z.add_0_r in E1, E2. injection E1 as ->. injection E2 as ->.
      rewrite <- (IH w s xs (k + 1)).
      - f_equal. f_equal. lia.
      - intros i Hi. specialize (Hr (S i) ltac:(lia)). cbn [nth_error] in Hr. rewrite Hr. do 2 f_equal. lia.
      - exact Hl.
      - intros i Hi. specialize (Hx (S i) ltac:(lia)). cbn [nth_error] in Hx. rewrite Hx. do 2 f_equal. lia.
    Qed.
    (** rows of weights of the right size *)
    Definition matrix (n p : Z) (rows : list (list N)) : Prop := Z.of_nat (length rows) = p /\ Forall (fun row => Z.of_nat (length row) = n) rows.

    Lemma matrix_at n p rows i j : matrix n p rows -> 0 <= i < n -> 0 <= j < p -> exists row a, entry_at rows j = Some row /\ entry_at row i = Some a /\ In row rows.
    Proof.
      intros [Hl Hf] Hi Hj. unfold entry_at. destruct (Z.ltb_spec j 0), (Z.ltb_spec i 0); try lia. destruct (nth_error rows (Z.to_nat j)) as [row|] eqn:Er; [|apply nth_error_None in Er; lia].
      assert (Hin := nth_error_In _ _ Er). rewrite Forall_forall in Hf. specialize (Hf row Hin). destruct (nth_error row (Z.to_nat i)) as [a|] eqn:Ea; [|apply nth_error_None in Ea; lia]. eauto.
    Qed.
    Lemma matrix_inside n p rows : matrix n p rows -> p <= n -> inside n (read_weights rows).
    Proof.
      intros [Hl Hf] Hp i j a. rewrite (proj2 (C101_read_weights rows)). destruct (entry_at rows j) as [row|] eqn:Er; [|discriminate]. intros Ea. apply entry_some in Er, Ea. destruct Er as [Hj Er].
      rewrite Forall_forall in Hf. specialize (Hf row (nth_error_In _ _ Er)). lia.
    Qed.

    (** one layer: if the weights into [j] are row [j] of the matrix, what reaches [j] is the product *)
    Lemma layer_step n (rows : list (list N)) w (s : Z -> N) xs f j : matrix n n rows -> Z.of_nat (length xs) = n -> (forall i, 0 <= i < n -> entry_at xs i = Some (s i)) ->
      0 <= j < n -> (forall row i, entry_at rows j = Some row -> 0 <= i < n -> entry_at row i = Some (w i j)) ->
      entry_at (layer zero add mul f rows xs) j = Some (f (reaching zero add mul n w s j)).
    Proof.
      intros Hm Hlx Hxs Hj Hw. destruct (matrix_at n n rows 0 j Hm) as (row & a & Er & _ & Hin); [lia|lia|]. assert (Hlr : Z.of_nat (length row) = n) by (destruct Hm as [_ Hf]; rewrite Forall_forall in Hf; exact (Hf row Hin)).
      unfold entry_at, layer in *. destruct (Z.ltb_spec j 0); [lia|]. rewrite nth_error_map, Er. cbn [option_map]. do 2 f_equal. unfold reaching, dot. rewrite <- Hlr.
      change (zrange 0 (Z.of_nat (length row))) with (zrange 0 (0 + Z.of_nat (length row))). symmetry. apply (dot_reach row (fun i => w i j)).
      - intros i Hi. specialize (Hw row (Z.of_nat i) Er ltac:(lia)). destruct (Z.ltb_spec (Z.of_nat i) 0); [lia|]. rewrite Nat2Z.id in Hw. exact Hw.
      - lia.
      - intros i Hi. specialize (Hxs (Z.of_nat i) ltac:(lia)). destruct (Z.ltb_spec (Z.of_nat i) 0); [lia|]. rewrite Nat2Z.id in Hxs. exact Hxs.
    Qed.

    Lemma entry_app {A} (l l' : list A) z : entry_at (l ++ l') z = if z <? Z.of_nat (length l) then entry_at l z else entry_at l' (z - Z.of_nat (length l)).
    Proof.
      unfold entry_at. destruct (Z.ltb_spec z (Z.of_nat (length l))) as [Hz|Hz].
      - destruct (Z.ltb_spec z 0); [reflexivity|]. rewrite nth_error_app1 by lia. reflexivity.
      - destruct (Z.ltb_spec z 0), (Z.ltb_spec (z - Z.of_nat (length l)) 0); try lia. rewrite nth_error_app2 by lia. f_equal. lia.
    Qed.
    Lemma entry_skipn {A} (l : list A) k z : 0 <= z -> entry_at (skipn k l) z = entry_at l (z + Z.of_nat k).
    Proof.
      intros Hz. unfold entry_at. destruct (Z.ltb_spec z 0), (Z.ltb_spec (z + Z.of_nat k) 0); try lia. replace (Z.to_nat (z + Z.of_nat k)) with (k + Z.to_nat z)%nat by lia. generalize (Z.to_nat z) as i. clear.
      revert l. induction k as [|k IH]; intros l i; [reflexivity|]. destruct l as [|x l]; [destruct i; reflexivity|]. cbn [skipn plus nth_error]. apply IH.
    Qed.
    Lemma entry_layer f (rows : list (list N)) xs j : entry_at (layer zero add mul f rows xs) j = option_map (fun row => f (dot zero add mul row xs)) (entry_at rows j).
    Proof. unfold entry_at, layer. destruct (j <? 0); [reflexivity|]. apply nth_error_map. Qed.
    Lemma dget_combine_zrange {A} (xs : list A) : forall k v, dget (combine (zrange k (k + Z.of_nat (length xs))) xs) v = entry_at xs (v - k).
    Proof.
      induction xs as [|x xs IH]; intros k v; [rewrite entry_nil; cbn; rewrite zrange_nil by lia; reflexivity|]. cbn [length]. rewrite zrange_cons by lia. cbn [combine dget]. rewrite entry_cons.
      destruct (eqd v k) as [->|Hv]; [rewrite Z.sub_diag; reflexivity|]. destruct (Z.eqb_spec (v - k) 0); [lia|]. replace (k + Z.of_nat (S (length xs))) with (k + 1 + Z.of_nat (length xs)) by lia. rewrite IH. f_equal. lia.
    Qed.

    Lemma forward_relu : forall fuel (g : @args Z N N U I) u0 positive n p (r12 r23 r34 img : list (list N)),
      1 <= n -> 0 <= p <= n -> matrix n n r12 -> matrix n n r23 -> matrix n p r34 -> Z.of_nat (length (concat img)) = n -> (4 <= fuel)%nat ->
      acts_first g (mlp_rule zero add mul (demo_activation zero positive)) (mlp_topology (demo_weights r23 r34)) ->
      let h1 := layer zero add mul (relu zero positive) r12 (concat img) in
      let h2 := layer zero add mul (relu zero positive) r23 h1 in
      exists m traj, mlp_network n (read_weights r12) = (m, Ok tt) /\
        evolve W fuel u0 m (Some (CDict (read_image img))) (Some 4) None g = Ok (u0, traj) /\
        Forall2 (fun s l => exists S, activities W s = Ok (Some S) /\ forall j, 0 <= j < n -> dget S j = entry_at l j) traj
          [concat img; h1; h2; layer zero add mul (fun v => v) (r34 ++ skipn (Z.to_nat p) r23) h2] /\
        exists S, option_map (activities W) (nth_error traj 3) = Some (Ok (Some S)) /\ forall j, 0 <= j < p -> dget S j = entry_at (layer zero add mul (fun v => v) r34 h2) j.
    Proof.
      intros fuel g u0 positive n p r12 r23 r34 img Hn Hp H12 H23 H34 Himg Hfuel Hg h1 h2. set (xs := concat img) in *.
      set (act := demo_activation zero positive) in *. set (table := demo_weights r23 r34) in *.
      set (w0 := fun i j => match weight_in (read_weights r12) i j with Some a => a | None => zero end). set (s0 := fun j => match entry_at xs j with Some a => a | None => zero end).
      assert (Hw0 : forall i j, 0 <= i < n -> 0 <= j < n -> weight_in (read_weights r12) i j = Some (w0 i j)).
      { intros i j Hi Hj. unfold w0. rewrite (proj2 (C101_read_weights r12)). destruct (matrix_at n n r12 i j H12 Hi Hj) as (row & a & E1 & E2 & _). rewrite E1, E2. reflexivity. }
      assert (Hs0 : forall j, 0 <= j < n -> entry_at xs j = Some (s0 j)).
      { intros j Hj. unfold s0. destruct (entry_at xs j) as [a|] eqn:E; [reflexivity|]. exfalso. unfold entry_at in E. destruct (Z.ltb_spec j 0); [lia|]. apply nth_error_None in E. lia. }
      assert (Hi12 := matrix_inside n n r12 H12 ltac:(lia)). assert (Hp12 := proj1 (C101_read_weights r12)).
      assert (Hbuild : exists m, mlp_network n (read_weights r12) = (m, Ok tt) /\ net_len m = Z.to_nat n).
      { destruct (all_pairs n Hn) as (m1 & E1 & W1). destruct (set_ok n _ Hp12 Hi12 _ m1 W1) as (m2 & E2 & [R2 Q2]). exists m2. unfold mlp_network. rewrite (mthen_ok _ _ _ _ E1). split; [exact E2|].
        rewrite (net_len_R _ _ R2). cbn [full_graph g_nodes]. rewrite map_length, length_zrange. f_equal. lia. }
      destruct Hbuild as (m & Em & Hlm). exists m.
      assert (Ed : to_dict W (CDict (read_image img)) = combine (zrange 0 (0 + Z.of_nat (length xs))) xs) by (cbn [to_dict]; rewrite C101_read_image; reflexivity).
      destruct (C101_run fuel g u0 n (read_weights r12) w0 m act table (CDict (read_image img)) s0 4 Hn Hp12 Hi12 Hw0 Em Hg ltac:(lia) ltac:(change (Z.to_nat 4) with 4%nat; lia)) as (traj & hs & E & Hl & Hf & H0 & HP).
      - rewrite Ed, combine_length, length_zrange, Hlm. lia.
      - intros j Hj. rewrite Ed, dget_combine_zrange, Z.sub_0_r. apply Hs0. assumption.
      - intros t Ht. assert (Hc : t = 1 \/ t = 2 \/ t = 3) by lia. destruct Hc as [->|[->| ->]]; (split; [eexists; reflexivity|]); eexists; (split; [reflexivity|]).
        + split; [exact (proj1 (C101_read_weights r23))|apply (matrix_inside n n r23 H23); lia].
        + split; [exact (proj1 (C101_read_weights r34))|apply (matrix_inside n p r34 H34); lia].
        + split; [split; [constructor|intros i r []]|intros i j a; discriminate].
      - exists traj. split; [exact Em|]. split; [exact E|].
        assert (Hlen_h1 : Z.of_nat (length h1) = n) by (unfold h1, layer; rewrite map_length; exact (proj1 H12)).
        assert (Hlen_h2 : Z.of_nat (length h2) = n) by (unfold h2, layer; rewrite map_length; exact (proj1 H23)).
        set (sig := signal zero add mul n act table w0 s0) in *.
        assert (E1 : forall j, 0 <= j < n -> entry_at h1 j = Some (sig 1%nat j)).
        { intros j Hj. unfold h1. rewrite (layer_step n r12 w0 s0 xs _ j H12 Himg Hs0 Hj); [reflexivity|]. intros row i Er Hi. assert (Ew := Hw0 i j Hi Hj). rewrite (proj2 (C101_read_weights r12)), Er in Ew. exact Ew. }
        assert (E2 : forall j, 0 <= j < n -> entry_at h2 j = Some (sig 2%nat j)).
        { intros j Hj. unfold h2. rewrite (layer_step n r23 (in_force table w0 1) (sig 1%nat) h1 _ j H23 Hlen_h1 E1 Hj); [reflexivity|]. intros row i Er Hi. cbn [in_force]. change (dget table (Z.of_nat 1)) with (Some (read_weights r23)). cbv iota.
          unfold after. rewrite (proj2 (C101_read_weights r23)), Er. destruct (matrix_at n n r23 i j H23 Hi Hj) as (row' & a & Er' & Ea & _). rewrite Er in Er'. injection Er' as <-. rewrite Ea. reflexivity. }
        assert (Hl34 : Z.of_nat (length r34) = p) by exact (proj1 H34).
        assert (Hmix : forall j, 0 <= j -> entry_at (r34 ++ skipn (Z.to_nat p) r23) j = if j <? p then entry_at r34 j else entry_at r23 j).
        { intros j Hj. rewrite entry_app, Hl34. destruct (Z.ltb_spec j p); [reflexivity|]. rewrite entry_skipn by lia. f_equal. lia. }
        assert (Hmat : matrix n n (r34 ++ skipn (Z.to_nat p) r23)).
        { split; [rewrite app_length, skipn_length; destruct H23 as [H23 _]; lia|]. apply Forall_app. split; [exact (proj2 H34)|]. apply Forall_forall. intros row Hr. destruct H23 as [_ Hf23]. rewrite Forall_forall in Hf23. apply Hf23.
          rewrite <- (firstn_skipn (Z.to_nat p) r23). apply in_or_app. right. exact Hr. }
        assert (E3 : forall j, 0 <= j < n -> entry_at (layer zero add mul (fun v => v) (r34 ++ skipn (Z.to_nat p) r23) h2) j = Some (sig 3%nat j)).
        { intros j Hj. rewrite (layer_step n _ (in_force table w0 2) (sig 2%nat) h2 _ j Hmat Hlen_h2 E2 Hj); [reflexivity|]. intros row i Er Hi. cbn [in_force]. change (dget table (Z.of_nat 1)) with (Some (read_weights r23)). change (dget table (Z.of_nat 2)) with (Some (read_weights r34)). cbv iota.
          unfold after. rewrite (proj2 (C101_read_weights r23)), (proj2 (C101_read_weights r34)). rewrite Hmix in Er by lia. destruct (Z.ltb_spec j p) as [Hjp|Hjp].
          - rewrite Er. destruct (matrix_at n p r34 i j H34 Hi ltac:(lia)) as (row' & a & Er' & Ea & _). rewrite Er in Er'. injection Er' as <-. rewrite Ea. reflexivity.
          - assert (En : entry_at r34 j = None) by (unfold entry_at; destruct (j <? 0); [reflexivity|]; apply nth_error_None; lia). rewrite En, Er.
            destruct (matrix_at n n r23 i j H23 Hi Hj) as (row' & a & Er' & Ea & _). rewrite Er in Er'. injection Er' as <-. rewrite Ea. reflexivity. }
        assert (Hshow : forall k S m' s l, nth_error hs k = Some (S, m') -> activities W s = Ok (shown_acts S) -> (forall j, 0 <= j < n -> entry_at l j = Some (sig k j)) ->
          exists S, activities W s = Ok (Some S) /\ forall j, 0 <= j < n -> dget S j = entry_at l j).
        { intros k S m' s l Ek Es Hl'. destruct (HP k S m' Ek) as (_ & HS & _). exists S. split; [|intros j Hj; rewrite Hl' by assumption; apply HS; assumption]. rewrite Es. specialize (HS 0 ltac:(lia)). destruct S; [discriminate|reflexivity]. }
        destruct hs as [|[S0 m0] [|[S1 m1] [|[S2 m2] [|[S3 m3] [|? ?]]]]]; cbn [length] in Hl; try lia.
        clear Hl34 Himg Hlen_h1 Hlen_h2 Hlm. inversion Hf as [|a0 ? t0 ? [A0 _] Hf0]; subst. inversion Hf0 as [|a1 ? t1 ? [A1 _] Hf1]; subst. inversion Hf1 as [|a2 ? t2 ? [A2 _] Hf2]; subst. inversion Hf2 as [|a3 ? t3 ? [A3 _] Hf3]; subst. inversion Hf3; subst. cbn [fst] in *.
        assert (X3 := Hshow 3%nat S3 m3 a3 _ eq_refl A3 E3). split.
        + constructor; [exact (Hshow 0%nat S0 m0 a0 xs eq_refl A0 Hs0)|]. constructor; [exact (Hshow 1%nat S1 m1 a1 h1 eq_refl A1 E1)|]. constructor; [exact (Hshow 2%nat S2 m2 a2 h2 eq_refl A2 E2)|]. constructor; [exact X3|constructor].
        + destruct X3 as (S & Ea & HS). exists S. cbn [nth_error option_map]. split; [rewrite Ea; reflexivity|]. intros j Hj. rewrite HS by lia. rewrite !entry_layer, Hmix by lia. destruct (Z.ltb_spec j p); [reflexivity|lia].
    Qed.
    (** The demo: the trajectory shows the image, the two hidden layers and then the output layer. Nodes beyond the [p] outputs still have the
        weights of the layer before, so that they show its rows without the activation function. *)
    Theorem C101_forward : forall fuel (g : @args Z N N U I) u0 positive rect n p (r12 r23 r34 img : list (list N)),
      (forall x, positive x = true -> rect x = x) -> (forall x, positive x = false -> rect x = zero) ->
      1 <= n -> 0 <= p <= n -> matrix n n r12 -> matrix n n r23 -> matrix n p r34 -> Z.of_nat (length (concat img)) = n -> (4 <= fuel)%nat ->
      acts_first g (mlp_rule zero add mul (demo_activation zero positive)) (mlp_topology (demo_weights r23 r34)) ->
      let h1 := layer zero add mul rect r12 (concat img) in
      let h2 := layer zero add mul rect r23 h1 in
      exists m traj, mlp_network n (read_weights r12) = (m, Ok tt) /\
        evolve W fuel u0 m (Some (CDict (read_image img))) (Some 4) None g = Ok (u0, traj) /\
        Forall2 (fun s l => exists S, activities W s = Ok (Some S) /\ forall j, 0 <= j < n -> dget S j = entry_at l j) traj
          [concat img; h1; h2; layer zero add mul (fun v => v) (r34 ++ skipn (Z.to_nat p) r23) h2] /\
        exists S, option_map (activities W) (nth_error traj 3) = Some (Ok (Some S)) /\ forall j, 0 <= j < p -> dget S j = entry_at (layer zero add mul (fun v => v) r34 h2) j.
    Proof.
      intros fuel g u0 positive rect n p r12 r23 r34 img Hpos Hneg Hn Hp H12 H23 H34 Himg Hfuel Hg.
      assert (Er : forall rows xs, layer zero add mul rect rows xs = layer zero add mul (relu zero positive) rows xs).
      { intros rows xs. unfold layer. apply map_ext. intros row. unfold relu. destruct (positive (dot zero add mul row xs)) eqn:E; auto. }
      cbv zeta. rewrite !Er. exact (forward_relu fuel g u0 positive n p r12 r23 r34 img Hn Hp H12 H23 H34 Himg Hfuel Hg).
    Qed.
  End Run.
End Proofs.
Print Assumptions C101_unknown_edge.
Print Assumptions C101_read_weights.
Print Assumptions C101_read_image.
Print Assumptions C101_run.
Print Assumptions C101_forward.

(** ** Examples, with integers *)
Definition Wm : env Z Z Z unit unit := mkEnv Z.of_nat Some (fun a => a) (fun _ => Err Unmodelled) (fun _ => Err Unmodelled) (fun _ => Err Unmodelled) (fun _ => Err Unmodelled).
Definition m12 : list (list Z) := [[1; 2; 0]; [-1; 0; 1]; [0; 1; 1]].
Definition m23 : list (list Z) := [[1; -1; 1]; [2; 0; -5]; [0; 1; 3]].
Definition m34 : list (list Z) := [[2; 1; -1]].
Definition mlp_args : @args Z Z Z unit unit :=
  mkArgs (Some (stateless (mlp_rule 0 Z.add Z.mul (demo_activation 0 (fun x => 0 <? x))))) (Some (pure_topo (mlp_topology (demo_weights m23 m34)))) None [] ACTIVITIES_FIRST true false true true false None.
Example C101_hypotheses_met : matrix 3 3 m12 /\ matrix 3 3 m23 /\ matrix 3 1 m34 /\ Z.of_nat (length (concat [[1; 2]; [3]])) = 3 /\
  acts_first mlp_args (mlp_rule 0 Z.add Z.mul (demo_activation 0 (fun x => 0 <? x))) (mlp_topology (demo_weights m23 m34)) /\
  layer 0 Z.add Z.mul (fun v => v) m34 (layer 0 Z.add Z.mul (Z.max 0) m23 (layer 0 Z.add Z.mul (Z.max 0) m12 [1; 2; 3])) = [-1].
Proof.
  assert (Hf : forall rows : list (list Z), forallb (fun row => Z.of_nat (length row) =? 3) rows = true -> Forall (fun row => Z.of_nat (length row) = 3) rows) by (intros rows Hb; rewrite forallb_forall in Hb; apply Forall_forall; intros row Hr; apply Z.eqb_eq, Hb, Hr).
  split; [split; [reflexivity|apply Hf; reflexivity]|]. split; [split; [reflexivity|apply Hf; reflexivity]|]. split; [split; [reflexivity|apply Hf; reflexivity]|]. split; [reflexivity|]. split; [repeat split|]. reflexivity.
Qed.
(** the run itself: node 0 ends with the output, nodes 1 and 2 with the rows of the second matrix *)
Example C101_small : match evolve Wm 4 tt (fst (mlp_network 3 (read_weights m12))) (Some (CDict (read_image [[1; 2]; [3]]))) (Some 4) None mlp_args with
  | Ok (_, [_; s1; s2; s3]) => activities Wm s1 = Ok (Some [(0, 5); (1, 2); (2, 5)]) /\ activities Wm s2 = Ok (Some [(0, 8); (1, 0); (2, 17)]) /\ activities Wm s3 = Ok (Some [(0, -1); (1, -69); (2, 51)])
  | _ => False end.
Proof. vm_compute. auto. Qed.
(** a weight for an edge that is not there *)
Example C101_unknown_met : snd (mlp_network (N:=Z) 2 [(0, [(0, 1)]); (1, [(2, 5)])]) = Err (Raise "edge does not exist").
Proof. vm_compute. reflexivity. Qed.
