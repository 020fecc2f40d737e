(** * Proofs about substitution systems *)
From Coq Require Import Ascii.
From Verif Require Import Py PyFacts ListFacts Network NetworkSpec NetworkProofs NetworkProofs2.
From Verif Require Import Evolve EvolveSpec EvolveProofs EvolveProofs2 EvolveProofs3 EvolveStatic Utils UtilsProofs SubstSpec Subst.
Open Scope string_scope.
Open Scope list_scope.
Open Scope Z_scope.

Lemma dedup_id {L} `{EqD L} (l : list L) : NoDup l -> dedup l = l.
Proof.
  induction 1 as [|x l Hx Hnd IH]; [reflexivity|]. cbn. rewrite IH. f_equal. clear - Hx. induction l as [|y l IH]; [reflexivity|]. cbn.
  destruct (eqb x y) eqn:E; [apply eqb_eq in E; subst; exfalso; apply Hx; left; reflexivity|]. cbn. f_equal. apply IH. intros Hi. apply Hx. right. assumption.
Qed.

Lemma filter_flat_map {X Y} (p : Y -> bool) (f : X -> list Y) l : filter p (flat_map f l) = flat_map (fun x => filter p (f x)) l.
Proof. induction l as [|x l IH]; [reflexivity|]. cbn. rewrite filter_app, IH. reflexivity. Qed.
Lemma map_flat_map {X Y Z'} (g : Y -> Z') (f : X -> list Y) l : map g (flat_map f l) = flat_map (fun x => map g (f x)) l.
Proof. induction l as [|x l IH]; [reflexivity|]. cbn. rewrite map_app, IH. reflexivity. Qed.
Lemma flat_map_ext_in {X Y} (f g : X -> list Y) l : (forall x, In x l -> f x = g x) -> flat_map f l = flat_map g l.
Proof. induction l as [|x l IH]; intros Hf; [reflexivity|]. cbn. rewrite (Hf x (or_introl eq_refl)), IH; [reflexivity|]. intros y Hy. apply Hf. right. assumption. Qed.
Lemma flat_map_nil {X Y} (f : X -> list Y) l : (forall x, In x l -> f x = []) -> flat_map f l = [].
Proof. induction l as [|x l IH]; intros Hf; [reflexivity|]. cbn. rewrite (Hf x (or_introl eq_refl)), IH; [reflexivity|]. intros y Hy. apply Hf. right. assumption. Qed.
Lemma flat_map_one {X} (p : X -> bool) l : flat_map (fun x => if p x then [x] else []) l = filter p l.
Proof. induction l as [|x l IH]; [reflexivity|]. cbn. rewrite IH. destruct (p x); reflexivity. Qed.
Lemma filter_zrange a b lo hi : lo <= a -> filter (fun i => (a <=? i) && (i <? b)) (zrange lo hi) = zrange a (Z.min b hi).
Proof.
  intros Ha. apply asc_unique; [apply asc_filter, asc_zrange|apply asc_zrange|]. intros x. rewrite filter_In, !in_zrange, andb_true_iff, Z.leb_le, Z.ltb_lt. lia.
Qed.

Lemma combine_app {X Y} (l l' : list X) (r r' : list Y) : length l = length r -> combine (l ++ l') (r ++ r') = combine l r ++ combine l' r'.
Proof. revert r. induction l as [|x l IH]; intros [|y r] E; try discriminate; [reflexivity|]. cbn. f_equal. apply IH. cbn in E. lia. Qed.

(** ** The network: every node of [lo, hi) sees itself and the k-1 next ones *)
Section Net.
  Context {V : Type}.
  Notation network := (network Z V).
  Notation graph := (graph Z V).

  Definition windowed (k lo hi : Z) (net : network) : Prop :=
    lo <= hi /\ exists g, R net g /\ net_rot net = None /\ map fst (g_nodes g) = zrange lo hi /\
      forall v, lo <= v < hi -> in_neighbours g v = zrange v (Z.min (v + k) hi).

  Lemma windowed_map k lo hi net v : windowed k lo hi net -> lo <= v < hi ->
    exists inc, in_edges net v = Ok inc /\ dget (get_neighbourhood_map net) v = Some (zrange v (Z.min (v + k) hi)).
  Proof.
    intros (_ & g & HR & Hrot & Hn & Hin) Hv. rewrite (in_edges_R net g v HR).
    assert (Hnb : is_nodeb g v = true) by (apply is_nodeb_true; unfold is_node; rewrite Hn; apply in_zrange; lia). rewrite Hnb. eexists. split; [reflexivity|].
    unfold get_neighbourhood_map. rewrite Hrot. unfold in_neighbours_map. destruct HR as [En Hok]. rewrite En. unfold repr. rewrite map_map. cbn [fst snd].
    rewrite <- (Hin v Hv). clear En Hnb Hok Hin Hrot. assert (Hi : In v (map fst (g_nodes g))) by (rewrite Hn; apply in_zrange; lia). clear Hn.
    induction (g_nodes g) as [|[w a] l IH]; [destruct Hi|]. cbn [map dget fst snd]. destruct (eqd v w) as [->|Hne].
    - f_equal. unfold rnode. cbn [n_inc]. rewrite dkeys_inc_of. reflexivity.
    - apply IH. destruct Hi as [Hi|Hi]; [cbn in Hi; congruence|assumption].
  Qed.

  Lemma nodes_windowed k lo hi net : windowed k lo hi net -> nodes net = zrange lo hi.
  Proof. intros (_ & g & HR & _ & Hn & _). rewrite (nodes_R _ _ HR). assumption. Qed.

  (** *** removing everything *)
  Lemma remove_all : forall l (net : network) (g : graph), R net g -> map fst (g_nodes g) = l ->
    exists net', mfor l remove_node net = (net', Ok tt) /\ R net' empty_graph /\ net_rot net' = net_rot net.
  Proof.
    induction l as [|v l IH]; intros net g HR Hn.
    - exists net. split; [reflexivity|]. split; [|reflexivity]. destruct HR as [En [Hnd He]]. destruct g as [ns es]. cbn [g_nodes g_edges] in *. destruct ns; [|discriminate].
      destruct es as [|e es]; [split; [assumption|split; assumption]|]. destruct (He e (or_introl eq_refl)) as [[] _].
    - cbn [mfor]. destruct (remove_node_R net g v HR) as (net1 & E1 & HR1 & Hrot1); [unfold is_node; rewrite Hn; left; reflexivity|]. unfold mthen, mbind. rewrite E1.
      destruct (IH net1 (spec_remove_node g v) HR1) as (net' & E' & HR' & Hrot').
      + cbn [spec_remove_node g_nodes]. destruct HR as [_ [Hnd _]]. rewrite Hn in Hnd. inversion Hnd as [|w l' Hv Hnd' Ew]. subst w l'.
        transitivity (filter (fun w => negb (eqb w v)) (map fst (g_nodes g))).
        { clear. induction (g_nodes g) as [|[w a] l IH]; [reflexivity|]. cbn. destruct (eqb w v); cbn; [assumption|f_equal; assumption]. }
        rewrite Hn. cbn. rewrite (proj2 (eqb_true v v) eq_refl). cbn. clear - Hv. induction l as [|y l IH]; [reflexivity|]. cbn.
        destruct (eqb y v) eqn:E; [apply eqb_eq in E; subst; exfalso; apply Hv; left; reflexivity|]. cbn. f_equal. apply IH. intros Hi. apply Hv. right. assumption.
      + exists net'. split; [exact E'|]. split; [assumption|congruence].
  Qed.

  (** *** adding a row of nodes *)
  Lemma ensure_here (g : graph) lo hi v : map fst (g_nodes g) = zrange lo hi -> lo <= v < hi -> ensure_node g v = g.
  Proof. intros Hn Hv. unfold ensure_node. assert (E : is_nodeb g v = true) by (apply is_nodeb_true; unfold is_node; rewrite Hn; apply in_zrange; lia). rewrite E. reflexivity. Qed.
  Lemma ensure_next (g : graph) lo hi : map fst (g_nodes g) = zrange lo hi -> lo <= hi -> map fst (g_nodes (ensure_node g hi)) = zrange lo (hi + 1) /\ g_edges (ensure_node g hi) = g_edges g.
  Proof.
    intros Hn Hle. unfold ensure_node. destruct (is_nodeb g hi) eqn:E.
    - exfalso. apply is_nodeb_true in E. unfold is_node in E. rewrite Hn in E. apply in_zrange in E. lia.
    - cbn [g_nodes g_edges]. rewrite map_app, Hn. cbn [map fst]. rewrite (zrange_snoc lo (hi + 1)) by lia. replace (hi + 1 - 1) with hi by lia. auto.
  Qed.

  Definition links (label m : Z) : dict Z (dict string V) := fold_left (fun d j => dset d (label - j) []) (zrange 0 m) [].
  Lemma links_eq label m : links label m = map (fun j => (label - j, [])) (zrange 0 m).
  Proof.
    unfold links. assert (Hg : forall k lo d, Z.of_nat k = m - lo -> 0 <= lo -> d = map (fun j => (label - j, [])) (zrange 0 lo) ->
      fold_left (fun d j => dset d (label - j) []) (zrange lo m) d = map (fun j => (label - j, @nil (string * V))) (zrange 0 m)).
    { induction k as [|k IH]; intros lo d Hk Hlo Hd; [rewrite zrange_nil by lia; subst; replace lo with m by lia; reflexivity|].
      rewrite (zrange_cons lo) by lia. cbn [fold_left]. apply IH; [lia|lia|]. rewrite (zrange_snoc 0 (lo + 1)) by lia. replace (lo + 1 - 1) with lo by lia. rewrite map_app. cbn [map].
      subst d. apply dset_new. unfold dkeys. rewrite map_map. cbn [fst]. intros Hi. apply in_map_iff in Hi. destruct Hi as (j & Hj & Hin). apply in_zrange in Hin. lia. }
    destruct (Z.le_gt_cases m 0); [rewrite zrange_nil by lia; reflexivity|]. apply (Hg (Z.to_nat m) 0 []); [lia|lia|]. rewrite zrange_nil by lia. reflexivity.
  Qed.

  Lemma add_links : forall l v (net : network) (g : graph) lo hi, R net g -> map fst (g_nodes g) = zrange lo hi -> lo <= v < hi -> (forall j, In j l -> lo <= v - j < hi) ->
    exists net' g', mfor (map (fun j => (v - j, [])) l) (fun tc => add_edge v (fst tc) (snd tc)) net = (net', Ok tt) /\ R net' g' /\ net_rot net' = net_rot net /\
      map fst (g_nodes g') = zrange lo hi /\ g_edges g' = g_edges g ++ map (fun j => (v, v - j, [])) l.
  Proof.
    induction l as [|j l IH]; intros v net g lo hi HR Hn Hv Hl; [exists net, g; rewrite app_nil_r; auto|]. cbn [map mfor fst snd].
    destruct (add_edge_R net g v (v - j) [] HR eq_refl) as (net1 & E1 & HR1 & Hrot1). unfold mthen, mbind. rewrite E1. unfold spec_add_edge in HR1.
    rewrite (ensure_here g lo hi v Hn Hv), (ensure_here g lo hi (v - j) Hn) in HR1 by (apply Hl; left; reflexivity).
    destruct (IH v net1 _ lo hi HR1 Hn Hv) as (net' & g' & E' & HR' & Hrot' & Hn' & He'); [intros i Hi; apply Hl; right; assumption|].
    exists net', g'. split; [exact E'|]. split; [assumption|]. split; [congruence|]. split; [assumption|]. rewrite He'. cbn [g_edges]. rewrite <- app_assoc. reflexivity.
  Qed.

  Context {A BA BN : Type} (W : env Z V A BA BN).
  Fixpoint items (k last num : Z) (l : list A) : list (A * dict Z (dict string V) * Z) :=
    match l with [] => [] | a :: l => (a, links (last + 1) (Z.min (num + 1) k), last + 1) :: items k (last + 1) (num + 1) l end.
  Lemma items_app k last num l l' : items k last num (l ++ l') = items k last num l ++ items k (last + Z.of_nat (length l)) (num + Z.of_nat (length l)) l'.
  Proof.
    revert last num. induction l as [|a l IH]; intros last num; [cbn; rewrite !Z.add_0_r; reflexivity|]. cbn [items app length]. f_equal. rewrite IH. f_equal. f_equal; lia.
  Qed.

  Definition row_edges (k lo i : Z) : list (Z * Z * dict string V) := map (fun j => (i, i - j, [])) (zrange 0 (Z.min (i - lo + 1) k)).

  Lemma add_items k lo : forall l hi (net : network) (g : graph), R net g -> lo <= hi -> map fst (g_nodes g) = zrange lo hi -> g_edges g = flat_map (row_edges k lo) (zrange lo hi) ->
    exists net' g', mfor (items k (hi - 1) (hi - lo) l) (add_one W) net = (net', Ok tt) /\ R net' g' /\ net_rot net' = net_rot net /\
      map fst (g_nodes g') = zrange lo (hi + Z.of_nat (length l)) /\ g_edges g' = flat_map (row_edges k lo) (zrange lo (hi + Z.of_nat (length l))).
  Proof.
    induction l as [|a l IH]; intros hi net g HR Hle Hn He; [exists net, g; cbn [length Z.of_nat items mfor]; rewrite Z.add_0_r; auto|].
    cbn [items mfor]. replace (hi - 1 + 1) with hi by lia.
    destruct (add_node_R net g hi [("activity", e_inj W a)] HR eq_refl eq_refl) as (net1 & E1 & HR1 & Hrot1).
    assert (Hn1 : map fst (g_nodes (spec_add_node g hi [("activity", e_inj W a)])) = zrange lo (hi + 1)).
    { destruct (ensure_next g lo hi Hn Hle) as [En _]. unfold spec_add_node. cbn [g_nodes]. rewrite map_map. rewrite <- En. apply map_ext. intros [w b]. cbn [fst]. destruct (eqd w hi); reflexivity. }
    assert (He1 : g_edges (spec_add_node g hi [("activity", e_inj W a)]) = g_edges g) by (unfold spec_add_node; cbn [g_edges]; apply (ensure_next g lo hi Hn Hle)).
    rewrite links_eq.
    destruct (add_links (zrange 0 (Z.min (hi - lo + 1) k)) hi net1 _ lo (hi + 1) HR1 Hn1 ltac:(lia)) as (net2 & g2 & E2 & HR2 & Hrot2 & Hn2 & He2).
    { intros j Hj. apply in_zrange in Hj. lia. }
    replace (hi - lo + 1) with (hi + 1 - lo) in * by lia.
    destruct (IH (hi + 1) net2 g2 HR2 ltac:(lia) Hn2) as (net' & g' & E' & HR' & Hrot' & Hn' & He').
    - rewrite He2, He1, He. rewrite (zrange_snoc lo (hi + 1)) by lia. replace (hi + 1 - 1) with hi by lia. rewrite flat_map_app. cbn [flat_map]. rewrite app_nil_r. unfold row_edges at 3.
      replace (hi - lo + 1) with (hi + 1 - lo) by lia. reflexivity.
    - exists net', g'. split.
      + unfold mthen, mbind, add_one at 1, mthen, mbind. rewrite E1, E2. replace (hi + 1 - 1) with hi in E' by lia. exact E'.
      + cbn [length]. replace (hi + Z.of_nat (Datatypes.S (length l))) with (hi + 1 + Z.of_nat (length l)) by lia. split; [assumption|]. split; [congruence|]. auto.
  Qed.

  Lemma rows_windowed k lo hi (net : network) (g : graph) : 1 <= k -> lo <= hi -> R net g -> net_rot net = None -> map fst (g_nodes g) = zrange lo hi ->
    g_edges g = flat_map (row_edges k lo) (zrange lo hi) -> windowed k lo hi net.
  Proof.
    intros Hk Hle HR Hrot Hn He. split; [assumption|]. exists g. split; [assumption|]. split; [assumption|]. split; [assumption|]. intros v Hv.
    unfold in_neighbours, edges_into. rewrite He, filter_flat_map, map_flat_map.
    rewrite (flat_map_ext_in _ (fun i => if (v <=? i) && (i <? v + k) then [i] else [])).
    - rewrite flat_map_one, filter_zrange by lia. apply dedup_id, NoDup_zrange.
    - intros i Hi. apply in_zrange in Hi. unfold row_edges.
      assert (Hf : forall m l, map src (filter (fun e => eqb (tgt e) v) (map (fun j => (i, i - j, @nil (string * V))) (zrange m l))) = if (m <=? i - v) && (i - v <? l) then [i] else []).
      { intros m l. assert (Hg : forall n m, Z.to_nat (l - m) = n -> map src (filter (fun e => eqb (tgt e) v) (map (fun j => (i, i - j, @nil (string * V))) (zrange m l))) = if (m <=? i - v) && (i - v <? l) then [i] else []).
        { induction n as [|n IH]; intros m' Hm'; [rewrite zrange_nil by lia; cbn; destruct (Z.leb_spec m' (i - v)), (Z.ltb_spec (i - v) l); try reflexivity; lia|].
          rewrite (zrange_cons m') by lia. cbn [map filter]. change (tgt (i, i - m', [])) with (i - m'). destruct (eqb (i - m') v) eqn:E.
          - apply eqb_eq in E. cbn [map]. rewrite IH by lia. destruct (Z.leb_spec (m' + 1) (i - v)), (Z.leb_spec m' (i - v)), (Z.ltb_spec (i - v) l); try lia. reflexivity.
          - rewrite IH by lia. assert (i - m' <> v) by (intros E'; rewrite (proj2 (eqb_true (i - m') v) E') in E; discriminate).
            destruct (Z.leb_spec (m' + 1) (i - v)), (Z.leb_spec m' (i - v)), (Z.ltb_spec (i - v) l); cbn; try reflexivity; lia. }
        apply (Hg _ m eq_refl). }
      rewrite Hf. destruct (Z.leb_spec 0 (i - v)), (Z.ltb_spec (i - v) (Z.min (i - lo + 1) k)), (Z.leb_spec v i), (Z.ltb_spec i (v + k)); cbn; try reflexivity; lia.
  Qed.

  Lemma rewrite_network k lo hi (net : network) l : 1 <= k -> windowed k lo hi net ->
    exists net', adjust_nodes W (items k (hi - 1) 0 l) (zrange lo hi) (copy net) = (net', Ok tt) /\ windowed k hi (hi + Z.of_nat (length l)) net'.
  Proof.
    intros Hk (Hle & g & HR & Hrot & Hn & _).
    assert (HRc : R (copy net) g) by (destruct HR as [En Hok]; split; assumption).
    destruct (remove_all (zrange lo hi) (copy net) g HRc Hn) as (net1 & E1 & HR1 & Hrot1).
    destruct (add_items k hi l hi net1 empty_graph HR1 ltac:(lia)) as (net' & g' & E' & HR' & Hrot' & Hn' & He').
    - rewrite zrange_nil by lia. reflexivity.
    - rewrite zrange_nil by lia. reflexivity.
    - rewrite Z.sub_diag in E'. exists net'. split; [unfold adjust_nodes, mthen, mbind; rewrite E1; exact E'|].
      apply (rows_windowed k hi _ net' g'); try assumption; [lia|]. rewrite Hrot', Hrot1. reflexivity.
  Qed.

  (** *** the initial network *)
  Definition col_edges (k n i : Z) : list (Z * Z * dict string V) := map (fun j => (i + j, i, [])) (zrange 0 (Z.min k (n - i))).

  Lemma init_col k n i : forall c a (net : network) (g : graph) m, Z.of_nat c = k - a -> 1 <= a -> 0 <= i < n -> R net g -> map fst (g_nodes g) = zrange 0 m -> i + a <= m <= n \/ m = n ->
    i < m ->
    exists net' g' m', mfor (zrange a k) (fun j => if i + j <? n then add_edge (i + j) i [] else mret tt) net = (net', Ok tt) /\ R net' g' /\ net_rot net' = net_rot net /\
      map fst (g_nodes g') = zrange 0 m' /\ m <= m' <= n /\ (i + k <= m' \/ m' = n) /\
      g_edges g' = g_edges g ++ map (fun j => (i + j, i, [])) (zrange a (Z.min k (n - i))).
  Proof.
    induction c as [|c IH]; intros a net g m Hc Ha Hi HR Hn Hm Him.
    - exists net, g, m. rewrite (zrange_nil a k) by lia. rewrite (zrange_nil a (Z.min k (n - i))) by lia. cbn [map]. rewrite app_nil_r. split; [reflexivity|]. split; [assumption|]. split; [reflexivity|]. split; [assumption|]. split; [lia|]. split; [lia|reflexivity].
    - rewrite (zrange_cons a k) by lia. cbn [mfor]. destruct (Z.ltb_spec (i + a) n) as [Hlt|Hge].
      + destruct (add_edge_R net g (i + a) i [] HR eq_refl) as (net1 & E1 & HR1 & Hrot1). unfold mthen, mbind. rewrite E1.
        assert (Hg1 : exists m1, map fst (g_nodes (spec_add_edge g (i + a) i [])) = zrange 0 m1 /\ g_edges (spec_add_edge g (i + a) i []) = g_edges g ++ [(i + a, i, [])] /\ m <= m1 <= n /\ (i + (a + 1) <= m1 \/ m1 = n)).
        { unfold spec_add_edge. cbn [g_nodes g_edges]. destruct (Z.lt_ge_cases (i + a) m).
          - exists m. rewrite (ensure_here g 0 m (i + a) Hn) by lia. rewrite (ensure_here g 0 m i Hn) by lia. split; [assumption|]. split; [reflexivity|]. lia.
          - assert (m = i + a) by lia. exists (m + 1). subst m. destruct (ensure_next g 0 (i + a) Hn ltac:(lia)) as [Hn2 He2]. rewrite (ensure_here _ 0 (i + a + 1) i Hn2) by lia. rewrite He2. split; [assumption|]. split; [reflexivity|]. lia. }
        destruct Hg1 as (m1 & Hn1 & He1 & Hm1 & Hm1').
        destruct (IH (a + 1) net1 _ m1 ltac:(lia) ltac:(lia) Hi HR1 Hn1 ltac:(lia) ltac:(lia)) as (net' & g' & m' & E' & HR' & Hrot' & Hn' & Hb' & Hk' & He').
        exists net', g', m'. split; [exact E'|]. split; [assumption|]. split; [congruence|]. split; [assumption|]. split; [lia|]. split; [assumption|].
        rewrite He', He1. rewrite (zrange_cons a (Z.min k (n - i))) by lia. cbn [map]. rewrite <- app_assoc. reflexivity.
      + unfold mthen, mbind. cbn [mret].
        destruct (IH (a + 1) net g m ltac:(lia) ltac:(lia) Hi HR Hn ltac:(lia) Him) as (net' & g' & m' & E' & HR' & Hrot' & Hn' & Hb' & Hk' & He').
        exists net', g', m'. split; [exact E'|]. split; [assumption|]. split; [assumption|]. split; [assumption|]. split; [lia|]. split; [assumption|].
        rewrite He', (zrange_nil (a + 1)), (zrange_nil a) by lia. reflexivity.
  Qed.

  Lemma init_cols k n : 1 <= k -> forall c i (net : network) (g : graph) m, Z.of_nat c = n - i -> 0 <= i -> R net g -> map fst (g_nodes g) = zrange 0 m -> i <= m <= n ->
    g_edges g = flat_map (col_edges k n) (zrange 0 i) ->
    exists net' g', mfor (zrange i n) (fun i => mthen (add_edge i i []) (mfor (zrange 1 k) (fun j => if i + j <? n then add_edge (i + j) i [] else mret tt))) net = (net', Ok tt) /\
      R net' g' /\ net_rot net' = net_rot net /\ map fst (g_nodes g') = zrange 0 n /\ g_edges g' = flat_map (col_edges k n) (zrange 0 n).
  Proof.
    intros Hk. induction c as [|c IH]; intros i net g m Hc Hi HR Hn Hm He.
    - rewrite (zrange_nil i n) by lia. exists net, g. assert (m = n) by lia. assert (i = n) by lia. subst. auto.
    - rewrite (zrange_cons i n) by lia. cbn [mfor]. destruct (add_edge_R net g i i [] HR eq_refl) as (net1 & E1 & HR1 & Hrot1).
      assert (Hg1 : exists m1, map fst (g_nodes (spec_add_edge g i i [])) = zrange 0 m1 /\ g_edges (spec_add_edge g i i []) = g_edges g ++ [(i, i, [])] /\ m <= m1 <= n /\ i + 1 <= m1).
      { unfold spec_add_edge. cbn [g_nodes g_edges]. destruct (Z.lt_ge_cases i m).
        - exists m. rewrite !(ensure_here g 0 m i Hn) by lia. split; [assumption|]. split; [reflexivity|]. lia.
        - assert (m = i) by lia. subst m. exists (i + 1). destruct (ensure_next g 0 i Hn ltac:(lia)) as [Hn2 He2]. rewrite (ensure_here _ 0 (i + 1) i Hn2) by lia. rewrite He2. split; [assumption|]. split; [reflexivity|]. lia. }
      destruct Hg1 as (m1 & Hn1 & He1 & Hm1 & Hm1').
      destruct (init_col k n i (Z.to_nat (k - 1)) 1 net1 _ m1 ltac:(lia) ltac:(lia) ltac:(lia) HR1 Hn1 ltac:(lia) ltac:(lia)) as (net2 & g2 & m2 & E2 & HR2 & Hrot2 & Hn2 & Hb2 & _ & He2).
      destruct (IH (i + 1) net2 g2 m2 ltac:(lia) ltac:(lia) HR2 Hn2 ltac:(lia)) as (net' & g' & E' & HR' & Hrot' & Hn' & He').
      + rewrite He2, He1, He. rewrite (zrange_snoc 0 (i + 1)) by lia. replace (i + 1 - 1) with i by lia. rewrite flat_map_app. cbn [flat_map]. rewrite app_nil_r, <- app_assoc. f_equal.
        unfold col_edges. rewrite (zrange_cons 0 (Z.min k (n - i))) by lia. cbn [map]. rewrite Z.add_0_r. reflexivity.
      + exists net', g'. split; [unfold mthen, mbind at 1 2; rewrite E1; unfold mthen in E2; rewrite E2; exact E'|]. split; [assumption|]. split; [congruence|]. auto.
  Qed.

  Lemma init_network_windowed k n : 1 <= k -> 0 <= n -> exists net, init_network k n = (net, Ok tt) /\ windowed k 0 n net.
  Proof.
    intros Hk Hn. destruct (init_cols k n Hk (Z.to_nat n) 0 empty_network empty_graph 0 ltac:(lia) ltac:(lia) R_empty) as (net & g & E & HR & Hrot & Hns & He); try reflexivity; [lia|].
    exists net. split; [exact E|]. split; [assumption|]. exists g. split; [assumption|]. split; [rewrite Hrot; reflexivity|]. split; [assumption|]. intros v Hv.
    unfold in_neighbours, edges_into. rewrite He, filter_flat_map, map_flat_map. rewrite (zrange_split 0 v n) by lia. rewrite (zrange_cons v n) by lia. rewrite flat_map_app. cbn [flat_map].
    assert (Hno : forall i, i <> v -> map src (filter (fun e => eqb (tgt e) v) (col_edges k n i)) = []).
    { intros i Hne. unfold col_edges. induction (zrange 0 (Z.min k (n - i))) as [|j l IH]; [reflexivity|]. cbn [map filter]. change (tgt (i + j, i, [])) with i.
      destruct (eqb i v) eqn:E2; [apply eqb_eq in E2; congruence|assumption]. }
    rewrite (flat_map_nil _ (zrange 0 v)) by (intros i Hi; apply in_zrange in Hi; apply Hno; lia). rewrite (flat_map_nil _ (zrange (v + 1) n)) by (intros i Hi; apply in_zrange in Hi; apply Hno; lia).
    rewrite app_nil_r. cbn [app].
    assert (E2 : map src (filter (fun e => eqb (tgt e) v) (col_edges k n v)) = zrange v (Z.min (v + k) n)).
    { unfold col_edges. rewrite filter_true.
      - rewrite map_map. replace (zrange v (Z.min (v + k) n)) with (zrange (v + 0) (v + Z.min k (n - v))) by (f_equal; lia). rewrite <- (Z.add_comm 0 v), <- (Z.add_comm (Z.min k (n - v)) v), zrange_shift. apply map_ext. intros j. change (v + j = j + v). lia.
      - intros e Hin. apply in_map_iff in Hin. destruct Hin as (j & <- & _). apply eqb_refl. }
    rewrite E2. apply dedup_id, NoDup_zrange.
  Qed.
End Net.
