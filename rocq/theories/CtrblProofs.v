(** * Proofs about CTRBLRule *)
From Verif Require Import Py PyFacts ListFacts Network NetworkSpec NetworkProofs Topology TopologySpec TopologyProofs TopologyProofs2 TopologyProofs3 TopologyProofs4.
From Verif Require Import Evolve EvolveSpec EvolveProofs EvolveProofs2 EvolveProofs3 EvolveStatic ReversibleProofs Ctrbl CtrblSpec.
Open Scope string_scope.
Open Scope list_scope.
Open Scope Z_scope.

(** ** the neighbourhood map *)

Definition map_upto (rows cols idx : Z) (m : dict Z von_neumann) : Prop :=
  forall i, dget m i = if (0 <=? i) && (i <? idx) then Some (vn_at rows cols (i / cols) i) else None.

Lemma map_inner rows cols row j m : 0 < cols -> 0 <= row -> 0 <= j <= cols -> map_upto rows cols (row * cols) m ->
  exists m', fold_left (fun s (_ : Z) => let '(m, idx) := s in (dset m idx (vn_at rows cols row idx), idx + 1)) (zrange 0 j) (m, row * cols) = (m', row * cols + j)
    /\ map_upto rows cols (row * cols + j) m'.
Proof.
  intros Hc Hr Hj Hm. set (f := fun _ _ => _).
  assert (Hk : forall k, (Z.of_nat k <= cols) -> exists m', fold_left f (zrange 0 (Z.of_nat k)) (m, row * cols) = (m', row * cols + Z.of_nat k)
    /\ map_upto rows cols (row * cols + Z.of_nat k) m').
  { induction k as [|k IH]; intros Hk; [exists m; cbn; rewrite Z.add_0_r; auto|].
    destruct IH as (m1 & E & Hm1); [lia|]. rewrite zrange_snoc by lia. replace (Z.of_nat (S k) - 1) with (Z.of_nat k) by lia.
    rewrite fold_left_app, E. cbn [fold_left f]. eexists. split; [f_equal; lia|].
    intros i. rewrite dget_dset, (Hm1 i). destruct (eqd i (row * cols + Z.of_nat k)) as [->|Hne].
    - destruct (Z.leb_spec 0 (row * cols + Z.of_nat k)); [|nia]. destruct (Z.ltb_spec (row * cols + Z.of_nat k) (row * cols + Z.of_nat (S k))); [|lia]. cbn [andb].
      f_equal. f_equal. apply Z.div_unique with (Z.of_nat k); lia.
    - destruct (Z.leb_spec 0 i), (Z.ltb_spec i (row * cols + Z.of_nat k)), (Z.ltb_spec i (row * cols + Z.of_nat (S k))); cbn [andb]; try reflexivity; lia. }
  destruct (Hk (Z.to_nat j) ltac:(lia)) as (m' & E & Hm'). rewrite Z2Nat.id in E, Hm' by lia. eauto.
Qed.

Lemma neighbourhood_map_spec rows cols : 0 < rows -> 0 < cols -> map_upto rows cols (rows * cols) (init_neighbourhood_map rows cols).
Proof.
  intros Hr Hc. unfold init_neighbourhood_map. set (f := fun _ _ => _).
  assert (Hk : forall k, (Z.of_nat k <= rows) -> exists m, fold_left f (zrange 0 (Z.of_nat k)) ([], 0) = (m, Z.of_nat k * cols) /\ map_upto rows cols (Z.of_nat k * cols) m).
  { induction k as [|k IH]; intros Hk.
    - exists []. split; [reflexivity|]. intros i. cbn [dget]. destruct ((0 <=? i) && (i <? Z.of_nat 0 * cols)) eqn:Ei; [|reflexivity]. apply andb_prop in Ei. destruct Ei as [E1 E2]. apply Z.leb_le in E1. apply Z.ltb_lt in E2. change (Z.of_nat 0 * cols) with 0 in E2. lia.
    - destruct IH as (m1 & E & Hm1); [lia|]. rewrite zrange_snoc by lia. replace (Z.of_nat (S k) - 1) with (Z.of_nat k) by lia.
      rewrite fold_left_app, E. cbn [fold_left]. unfold f at 1.
      destruct (map_inner rows cols (Z.of_nat k) cols m1 Hc ltac:(lia) ltac:(lia) Hm1) as (m2 & E2 & Hm2). rewrite E2. exists m2.
      replace (Z.of_nat (S k) * cols) with (Z.of_nat k * cols + cols) by lia. auto. }
  destruct (Hk (Z.to_nat rows) ltac:(lia)) as (m & E & Hm). rewrite Z2Nat.id in E, Hm by lia. rewrite E. assumption.
Qed.

Lemma vn_at_cell rows cols a b : 0 < rows -> 0 < cols -> 0 <= a < rows -> 0 <= b < cols ->
  let v := vn_at rows cols a (a * cols + b) in
  [vn_center v; vn_top v; vn_right v; vn_bottom v; vn_left v] = ctrbl_cells rows cols a b.
Proof.
  intros Hr Hc Ha Hb. unfold vn_at, ctrbl_cells. cbn [vn_center vn_top vn_right vn_bottom vn_left].
  assert (Hm : forall x, (x * cols + b) mod (rows * cols) = x mod rows * cols + b).
  { intros x. symmetry. apply Z.mod_unique with (x / rows).
    - left. pose proof (Z.mod_pos_bound x rows Hr). nia.
    - pose proof (Z.div_mod x rows ltac:(lia)). nia. }
  replace (a * cols + b - cols) with ((a - 1) * cols + b) by lia. replace (a * cols + b + cols) with ((a + 1) * cols + b) by lia.
  rewrite !Hm. replace (a * cols + b - a * cols) with b by lia. rewrite (Z.add_comm ((b + 1) mod cols)), (Z.add_comm ((b - 1) mod cols)). reflexivity.
Qed.

(** ** the network *)

Lemma ca2d_unordered rows cols r nb net : cellular_automaton2d rows cols r nb true = Ok net ->
  exists net0, cellular_automaton2d rows cols r nb false = Ok net0 /\ net_nodes net0 = net_nodes net /\ net_rot net0 = None.
Proof.
  unfold cellular_automaton2d. intros E. inv_bind E M EM. rewrite EM. cbn [rbind].
  destruct (from_adj_R nzb M) as (net0 & E2 & _ & Hrot). rewrite E2 in *. exists net0. split; [reflexivity|].
  unfold set_ordered in E. destruct (rmap _ (nodes net0)); [|discriminate]. unfold set_rotation_system in E. destruct (forallb _ _); [|discriminate].
  injection E as <-. auto.
Qed.

Lemma vn_offsets rows cols a b c d : 0 < rows -> 0 < cols -> 0 <= a < rows -> 0 <= b < cols -> 0 <= c < rows -> 0 <= d < cols ->
  (torus_step rows cols (von_neumann_offset 1) a b c d <-> In (cell cols c d) (ctrbl_cells rows cols a b)).
Proof.
  intros Hr Hc Ha Hb Hc' Hd.
  assert (Ecells : ctrbl_cells rows cols a b = map (fun o => (a + fst o) mod rows * cols + (b + snd o) mod cols) [(0, 0); (-1, 0); (0, 1); (1, 0); (0, -1)]).
  { unfold ctrbl_cells. cbn [map fst snd]. rewrite !Z.add_0_r, (Z.mod_small a), (Z.mod_small b) by lia. reflexivity. }
  rewrite Ecells. cbn [map fst snd].
  assert (Hcell : forall x y, cell cols c d = (a + x) mod rows * cols + (b + y) mod cols <-> c = (a + x) mod rows /\ d = (b + y) mod cols).
  { intros x y. split; [|intros [-> ->]; reflexivity]. apply cell_inj; [lia|]. apply Z.mod_pos_bound. lia. }
  split.
  - intros (dx & dy & Ho & E1 & E2). pose proof (proj2 (Hcell dx dy) (conj E1 E2)) as E. rewrite E. unfold von_neumann_offset in Ho. cbn [In].
    assert (Hcases : (dx = 0 /\ dy = 0) \/ (dx = -1 /\ dy = 0) \/ (dx = 0 /\ dy = 1) \/ (dx = 1 /\ dy = 0) \/ (dx = 0 /\ dy = -1)) by lia.
    destruct Hcases as [[-> ->]|[[-> ->]|[[-> ->]|[[-> ->]|[-> ->]]]]]; auto 10.
  - intros Hin. cbn [In] in Hin. unfold torus_step, von_neumann_offset.
    repeat destruct Hin as [Hin|Hin]; try contradiction; symmetry in Hin; apply Hcell in Hin; destruct Hin as [E1 E2].
    + exists 0, 0. repeat split; try assumption; lia.
    + exists (-1), 0. repeat split; try assumption; lia.
    + exists 0, 1. repeat split; try assumption; lia.
    + exists 1, 0. repeat split; try assumption; lia.
    + exists 0, (-1). repeat split; try assumption; lia.
Qed.

Lemma cells_range rows cols a b u : 0 < rows -> 0 < cols -> 0 <= a < rows -> 0 <= b < cols -> In u (ctrbl_cells rows cols a b) -> 0 <= u < rows * cols.
Proof.
  intros Hr Hc Ha Hb Hin.
  pose proof (Z.mod_pos_bound (a - 1) rows Hr). pose proof (Z.mod_pos_bound (a + 1) rows Hr).
  pose proof (Z.mod_pos_bound (b - 1) cols Hc). pose proof (Z.mod_pos_bound (b + 1) cols Hc).
  cbn in Hin. repeat destruct Hin as [<-|Hin]; try contradiction; nia.
Qed.

Section Init.
  Context {A : Type} `{EqD A}.

  Lemma rotation_loop (m : dict Z von_neumann) (f : Z -> von_neumann) l acc :
    (forall v, In v l -> dget m v = Some (f v)) -> NoDup (dkeys acc ++ l) ->
    rfold (fun rs node => neigh <- of_opt KeyError (dget m node) ;;
        Ok (dset rs node [vn_center neigh; vn_top neigh; vn_right neigh; vn_bottom neigh; vn_left neigh])) l acc
    = Ok (acc ++ map (fun v => (v, [vn_center (f v); vn_top (f v); vn_right (f v); vn_bottom (f v); vn_left (f v)])) l).
  Proof.
    revert acc. induction l as [|v l IH]; intros acc Hm Hnd; cbn [rfold map]; [rewrite app_nil_r; reflexivity|].
    rewrite (Hm v (or_introl eq_refl)). cbn [of_opt rbind]. rewrite dset_new.
    - rewrite IH.
      + rewrite <- app_assoc. reflexivity.
      + intros w Hw. apply Hm. right. assumption.
      + rewrite dkeys_app, <- app_assoc. exact Hnd.
    - apply NoDup_remove_2 in Hnd. intros Hin. apply Hnd, in_or_app. left. assumption.
  Qed.

  Lemma dget_mapkey {B} (f : Z -> B) l v : In v l -> dget (map (fun v => (v, f v)) l) v = Some (f v).
  Proof.
    induction l as [|w l IH]; intros Hin; [destruct Hin|]. cbn. destruct (eqd v w) as [->|Hne]; [reflexivity|]. destruct Hin; [congruence|auto].
  Qed.

  Lemma ctrbl_network rows cols (t : dict (list A) A) rot : 0 < rows -> 0 < cols -> 9 <= rows * cols ->
    exists net, NoDup (nodes net) /\ (forall v, In v (nodes net) <-> 0 <= v < rows * cols) /\
      (forall a b, 0 <= a < rows -> 0 <= b < cols ->
         nbrs_of net (a * cols + b) (ctrbl_cells rows cols a b) /\
         exists inc, in_edges net (a * cols + b) = Ok inc /\ forall u, In u (dkeys inc) <-> In u (ctrbl_cells rows cols a b)) /\
      ctrbl_init rows cols t rot = (t' <- init_rule_table t rot ;; Ok (mkCtrbl net (init_neighbourhood_map rows cols) t')).
  Proof.
    intros Hr Hc Hn.
    destruct (ca2d_ordered rows cols 1 "von Neumann" crit_von_neumann Hr Hc Hn ltac:(lia) ltac:(auto)) as (net1 & rs1 & E & Erot & Ek & Hnd & Hnodes & Hv).
    destruct (ca2d_unordered _ _ _ _ _ E) as (net0 & E0 & Enet & Erot0).
    assert (Enodes : nodes net0 = nodes net1) by (unfold nodes; rewrite Enet; reflexivity).
    pose proof (neighbourhood_map_spec rows cols Hr Hc) as Hmap.
    set (rs := map (fun v => (v, let x := vn_at rows cols (v / cols) v in [vn_center x; vn_top x; vn_right x; vn_bottom x; vn_left x])) (nodes net0)).
    assert (Hrs : forall a b, 0 <= a < rows -> 0 <= b < cols -> dget rs (a * cols + b) = Some (ctrbl_cells rows cols a b)).
    { intros a b Ha Hb. unfold rs. rewrite (dget_mapkey (fun v => let x := vn_at rows cols (v / cols) v in [vn_center x; vn_top x; vn_right x; vn_bottom x; vn_left x])).
      - f_equal. replace ((a * cols + b) / cols) with a by (apply Z.div_unique with b; lia). apply (vn_at_cell rows cols a b); assumption.
      - rewrite Enodes. apply Hnodes. apply (cell_bound rows cols a b); assumption. }
    assert (Hloop := rotation_loop (init_neighbourhood_map rows cols) (fun v => vn_at rows cols (v / cols) v) (nodes net0) []).
    cbn [app] in Hloop. change (dkeys []) with (@nil Z) in Hloop. cbn [app] in Hloop.
    assert (Hset : set_rotation_system rs net0 = (mkNet (net_nodes net0) (Some rs), Ok tt)).
    { unfold set_rotation_system. replace (forallb _ rs) with true; [reflexivity|]. symmetry. apply forallb_forall. intros [v l] Hin.
      unfold rs in Hin. apply in_map_iff in Hin. destruct Hin as (v' & Ev & Hv'). assert (v = v') by congruence. subst v'. cbn [fst snd].
      assert (Hb : 0 <= v < rows * cols) by (apply Hnodes; rewrite <- Enodes; assumption).
      destruct (cell_surj rows cols v Hc Hb) as (Ev' & Ha & Hb').
      assert (El : l = ctrbl_cells rows cols (v / cols) (v mod cols)).
      { injection Ev as <-. pose proof (vn_at_cell rows cols _ _ Hr Hc Ha Hb') as Hcl. unfold cell in Ev'. rewrite <- Ev' in Hcl. exact Hcl. }
      apply andb_true_intro. split; [apply dmem_true; assumption|]. apply forallb_forall. intros u Hu. apply dmem_true. change (In u (nodes net0)). rewrite Enodes. apply Hnodes.
      rewrite El in Hu. apply (cells_range rows cols _ _ u Hr Hc Ha Hb' Hu). }
    exists (mkNet (net_nodes net0) (Some rs)). change (nodes (mkNet (net_nodes net0) (Some rs))) with (nodes net0). rewrite Enodes.
    split; [assumption|]. split; [assumption|]. split.
    - intros a b Ha Hb. split; [unfold nbrs_of; cbn [net_rot]; apply Hrs; assumption|].
      destruct (Hv a b Ha Hb) as (T & l & inc & E1 & E2 & E3 & Hasc & Hub & Hin & _). exists inc.
      split; [unfold in_edges in *; cbn [net_nodes]; rewrite Enet; exact E2|]. intros u. rewrite E3. split.
      + intros Hu. destruct (cell_surj rows cols u Hc (Hub u Hu)) as (Eu & Hc1 & Hd1). rewrite Eu in Hu |- *. apply Hin in Hu; [|assumption|assumption].
        rewrite (torus_ext rows cols _ _ _ _ _ _ (von_neumann_crit 1 _)) in Hu. apply torus_sym in Hu; [|unfold von_neumann_offset; lia|assumption|assumption].
        apply (vn_offsets rows cols a b); assumption.
      + intros Hu. pose proof (cells_range rows cols a b u Hr Hc Ha Hb Hu) as Hb2. destruct (cell_surj rows cols u Hc Hb2) as (Eu & Hc1 & Hd1). rewrite Eu in Hu |- *.
        apply Hin; [assumption|assumption|]. rewrite (torus_ext rows cols _ _ _ _ _ _ (von_neumann_crit 1 _)). apply torus_sym; [unfold von_neumann_offset; lia|assumption|assumption|].
        apply vn_offsets; assumption.
    - unfold ctrbl_init. rewrite E0. cbn [rbind]. rewrite Hloop.
      + cbn [rbind]. fold rs. rewrite Hset. reflexivity.
      + intros v Hv'. rewrite (Hmap v). rewrite Enodes in Hv'. apply Hnodes in Hv'. destruct (Z.leb_spec 0 v), (Z.ltb_spec v (rows * cols)); try lia. reflexivity.
      + rewrite Enodes. assumption.
  Qed.

  (** ** the table *)

  Lemma rotate_key5 c t r b l : rotate_key (A:=A) [c; t; r; b; l] = Ok [c; l; t; r; b].
  Proof. reflexivity. Qed.

  Definition four (k : list A) : list (list A) :=
    match k with [c; t; r; b; l] => [[c; t; r; b; l]; [c; l; t; r; b]; [c; b; l; t; r]; [c; r; b; l; t]] | _ => [] end.

  Lemma turned_four k k' : turned k k' <-> In k' (four k).
  Proof.
    unfold turned. split; [intros (c & t & r & b & l & -> & Hin); exact Hin|].
    destruct k as [|c [|t [|r [|b [|l [|x k]]]]]]; cbn [four]; try contradiction. intros Hin. exists c, t, r, b, l. auto.
  Qed.

  Lemma five_key (k : list A) : length k = 5%nat -> exists c t r b l, k = [c; t; r; b; l].
  Proof. destruct k as [|c [|t [|r [|b [|l [|x k]]]]]]; try discriminate. intros _. exists c, t, r, b, l. reflexivity. Qed.

  Lemma turned_sym (k k' : list A) : turned k k' -> turned k' k.
  Proof.
    intros (c & t & r & b & l & -> & Hin). cbn in Hin. repeat destruct Hin as [<-|Hin]; try contradiction.
    - exists c, t, r, b, l. split; [reflexivity|]. cbn. tauto.
    - exists c, l, t, r, b. split; [reflexivity|]. cbn. tauto.
    - exists c, b, l, t, r. split; [reflexivity|]. cbn. tauto.
    - exists c, r, b, l, t. split; [reflexivity|]. cbn. tauto.
  Qed.
  Lemma turned_trans (k k' k'' : list A) : turned k k' -> turned k' k'' -> turned k k''.
  Proof.
    intros (c & t & r & b & l & -> & Hin) H2. apply turned_four. apply turned_four in H2. cbn in *. repeat destruct Hin as [<-|Hin]; try contradiction; cbn in *; tauto.
  Qed.
  Lemma turned_refl (k : list A) : length k = 5%nat -> turned k k.
  Proof. intros Hl. destruct (five_key k Hl) as (c & t & r & b & l & ->). exists c, t, r, b, l. cbn. auto. Qed.
  Lemma turned_len (k k' : list A) : turned k k' -> length k = 5%nat /\ length k' = 5%nat.
  Proof. intros (c & t & r & b & l & -> & Hin). cbn in Hin. repeat destruct Hin as [<-|Hin]; try contradiction; auto. Qed.

  Definition turned_dec (k k' : list A) : {turned k k'} + {~ turned k k'}.
  Proof. destruct (in_dec (list_eq_dec eqd) k' (four k)) as [Hi|Hn]; [left|right]; rewrite turned_four; assumption. Defined.

  Definition add_entry (d : dict (list A) A) (ri : list A * A) : res (dict (list A) A) :=
    let '(rule, image) := ri in
    let d := dset d rule image in
    ' (_, d) <- rfold (fun s (_ : Z) => let '(r, d) := s in r <- rotate_key r ;; Ok (r, dset d r image)) (zrange 0 3) (rule, d) ;; Ok d.

  Lemma add_entry_spec d k (v : A) : length k = 5%nat -> exists d', add_entry d (k, v) = Ok d' /\
    forall q, dget d' q = if turned_dec k q then Some v else dget d q.
  Proof.
    intros Hl. destruct (five_key k Hl) as (c & t & r & b & l & ->). unfold add_entry. change (zrange 0 3) with [0; 1; 2]. cbn [rfold].
    rewrite rotate_key5. cbn [rbind]. rewrite rotate_key5. cbn [rbind]. rewrite rotate_key5. cbn [rbind]. eexists. split; [reflexivity|].
    intros q. rewrite !dget_dset. destruct (turned_dec [c; t; r; b; l] q) as [Hi|Hn].
    - apply turned_four in Hi. cbn [four In] in Hi. repeat (destruct (eqd q _); [reflexivity|]). exfalso. intuition congruence.
    - assert (Hn' : ~ In q (four [c; t; r; b; l])) by (rewrite <- turned_four; assumption). cbn [four In] in Hn'.
      repeat (destruct (eqd q _); [exfalso; apply Hn'; subst; tauto|]). reflexivity.
  Qed.

  Lemma table_spec t d : five t -> exists d', rfold add_entry t d = Ok d' /\
    forall k, (exists v, last_entry t k v /\ dget d' k = Some v) \/ ((forall k0 v, In (k0, v) t -> ~ turned k0 k) /\ dget d' k = dget d k).
  Proof.
    revert d. induction t as [|[k0 v0] t IH]; intros d Hf.
    - exists d. split; [reflexivity|]. intros k. right. split; [intros ? ? []|reflexivity].
    - destruct (add_entry_spec d k0 v0 (Hf k0 v0 (or_introl eq_refl))) as (d1 & E1 & Hg1).
      destruct (IH d1) as (d2 & E2 & Hg2); [intros k v Hin; apply (Hf k v); right; assumption|].
      cbn [rfold]. rewrite E1. cbn [rbind]. exists d2. split; [assumption|]. intros k.
      destruct (Hg2 k) as [(v & (p & k1 & s & Et & Ht & Hs) & Eg)|[Hn Eg]].
      + left. exists v. split; [|assumption]. exists ((k0, v0) :: p), k1, s. rewrite Et. auto.
      + rewrite Hg1 in Eg. destruct (turned_dec k0 k) as [Ht|Hnt].
        * left. exists v0. split; [|assumption]. exists [], k0, t. auto.
        * right. split; [|assumption]. intros k1 v1 [E|Hin]; [injection E as <- <-; assumption|eauto].
  Qed.

  Lemma init_rule_table_true t : five t -> exists t', init_rule_table t true = Ok t' /\
    forall k, (exists v, last_entry t k v /\ dget t' k = Some v) \/ ((forall k0 v, In (k0, v) t -> ~ turned k0 k) /\ dget t' k = None).
  Proof. intros Hf. apply (table_spec t []). assumption. Qed.

  Lemma init_rule_table_false (t : dict (list A) A) : NoDup (dkeys t) -> init_rule_table t false = Ok t.
  Proof.
    assert (Hg : forall l d : dict (list A) A, NoDup (dkeys d ++ dkeys l) -> rfold (fun d ri => let '(rule, image) := ri in Ok (dset d rule image)) l d = Ok (d ++ l)).
    { induction l as [|[k v] l IH]; intros d Hnd; cbn [rfold]; [rewrite app_nil_r; reflexivity|]. cbn [rbind]. rewrite dset_new.
      - rewrite IH; [rewrite <- app_assoc; reflexivity|]. rewrite dkeys_app, <- app_assoc. exact Hnd.
      - cbn in Hnd. apply NoDup_remove_2 in Hnd. intros Hin. apply Hnd, in_or_app. left. assumption. }
    intros Hnd. unfold init_rule_table. rewrite <- (app_nil_l t) at 2. rewrite <- Hg; [|exact Hnd].
    generalize (@nil (list A * A)). induction t as [|[k v] t IH]; intros d; cbn [rfold]; [reflexivity|]. cbn [rbind]. apply IH. inversion Hnd. assumption.
  Qed.

  Lemma table_keys t t' : five t -> init_rule_table t true = Ok t' ->
    forall k, In k (dkeys t') <-> exists k0 v, In (k0, v) t /\ turned k0 k.
  Proof.
    intros Hf E k. destruct (init_rule_table_true t Hf) as (t2 & E2 & Hg). rewrite E in E2. injection E2 as <-.
    destruct (Hg k) as [(v & (p & k0 & s & Et & Ht & Hs) & Eg)|[Hn Eg]].
    - split; [|intros _; apply dget_some_key in Eg; assumption]. intros _. exists k0, v. split; [rewrite Et; apply in_or_app; right; left; reflexivity|assumption].
    - apply dget_none in Eg. split; [contradiction|]. intros (k0 & v & Hin & Ht). exfalso. apply (Hn k0 v); assumption.
  Qed.

  Lemma table_consistent t t' : five t -> consistent t -> init_rule_table t true = Ok t' ->
    forall k v k', In (k, v) t -> turned k k' -> dget t' k' = Some v.
  Proof.
    intros Hf Hc E k v k' Hin Ht. destruct (init_rule_table_true t Hf) as (t2 & E2 & Hg). rewrite E in E2. injection E2 as <-.
    destruct (Hg k') as [(v' & (p & k0 & s & Et & Ht0 & Hs) & Eg)|[Hn Eg]].
    - rewrite Eg. f_equal. symmetry. apply (Hc k k0 v v' Hin).
      + rewrite Et. apply in_or_app. right. left. reflexivity.
      + apply (turned_trans _ k'); [assumption|apply turned_sym; assumption].
    - exfalso. apply (Hn k v Hin Ht).
  Qed.

  Lemma table_invariant t t' : five t -> consistent t -> init_rule_table t true = Ok t' ->
    forall k k', turned k k' -> dget t' k = dget t' k'.
  Proof.
    intros Hf Hc E k k' Ht. destruct (dget t' k) as [v|] eqn:Eg.
    - pose proof (dget_some_key _ _ _ Eg) as Hk. apply (table_keys t t' Hf E) in Hk. destruct Hk as (k0 & v0 & Hin & Ht0).
      rewrite (table_consistent t t' Hf Hc E k0 v0 k Hin Ht0) in Eg. injection Eg as <-.
      symmetry. apply (table_consistent t t' Hf Hc E k0 v0 k' Hin). apply (turned_trans _ k); assumption.
    - destruct (dget t' k') as [v|] eqn:Eg'; [|reflexivity]. pose proof (dget_some_key _ _ _ Eg') as Hk. apply (table_keys t t' Hf E) in Hk. destruct Hk as (k0 & v0 & Hin & Ht0).
      assert (Ht1 : turned k0 k) by (apply (turned_trans _ k'); [assumption|apply turned_sym; assumption]).
      rewrite (table_consistent t t' Hf Hc E k0 v0 k Hin Ht1) in Eg. discriminate.
  Qed.
End Init.

(** ** whole runs commute with quarter turns *)

Section Turn.
  Context {A U I BA BN : Type} `{EqD A}.
  Context (W : env Z Z A BA BN).
  Notation acts := (dict Z A).
  Notation ctx := (node_ctx Z Z A I).
  Notation args := (@args Z Z A U I).
  Notation tick := (InStr "__timestep__").

  Lemma turned_cells n a b : 0 < n -> 0 <= a < n -> 0 <= b < n -> exists c t r d l,
    ctrbl_cells n n a b = map (fun p => fst p * n + snd p) [c; t; r; d; l] /\
    Forall (fun p => 0 <= fst p < n /\ 0 <= snd p < n) [c; t; r; d; l] /\
    ctrbl_cells n n b (n - 1 - a) = map (fun p => snd p * n + (n - 1 - fst p)) [c; l; t; r; d].
  Proof.
    intros Hn Ha Hb. exists (a, b), ((a - 1) mod n, b), (a, (b + 1) mod n), ((a + 1) mod n, b), (a, (b - 1) mod n).
    pose proof (Z.mod_pos_bound (a - 1) n Hn). pose proof (Z.mod_pos_bound (a + 1) n Hn).
    pose proof (Z.mod_pos_bound (b - 1) n Hn). pose proof (Z.mod_pos_bound (b + 1) n Hn).
    split; [reflexivity|]. split; [repeat constructor; cbn [fst snd]; lia|]. unfold ctrbl_cells. cbn [map fst snd].
    assert (E1 : (n - 1 - a + 1) mod n = n - 1 - (a - 1) mod n).
    { symmetry. apply Z.mod_unique with (1 + - ((a - 1) / n) - 1); [lia|]. pose proof (Z.div_mod (a - 1) n ltac:(lia)). nia. }
    assert (E2 : (n - 1 - a - 1) mod n = n - 1 - (a + 1) mod n).
    { symmetry. apply Z.mod_unique with (- ((a + 1) / n)); [lia|]. pose proof (Z.div_mod (a + 1) n ltac:(lia)). nia. }
    rewrite E1, E2. reflexivity.
  Qed.

  Definition dturn (n : Z) (S S' : acts) : Prop := quarter_turn n (dget S) (dget S').

  Lemma ctx_turn n (net : network Z Z) (S S' : acts) a b t t' past past' (x y : ctx) :
    0 < n -> 0 <= a < n -> 0 <= b < n ->
    (forall a b, 0 <= a < n -> 0 <= b < n -> nbrs_of net (a * n + b) (ctrbl_cells n n a b)) ->
    dturn n S S' -> ctx_for W net S t past tick (a * n + b) x -> ctx_for W net S' t' past' tick (b * n + (n - 1 - a)) y -> turned (x_nacts x) (x_nacts y).
  Proof.
    intros Hn Ha Hb Hnb Ht Hx Hy.
    destruct (turned_cells n a b Hn Ha Hb) as (c & tt & r & d & l & E1 & Hall & E2).
    pose proof (nbrs_of_unique _ _ _ _ (cf_nbrs _ _ _ _ _ _ _ _ Hx) (Hnb a b Ha Hb)) as N1.
    pose proof (nbrs_of_unique _ _ _ _ (cf_nbrs _ _ _ _ _ _ _ _ Hy) (Hnb b (n - 1 - a) Hb ltac:(lia))) as N2.
    pose proof (cf_nacts _ _ _ _ _ _ _ _ Hx) as F1. pose proof (cf_nacts _ _ _ _ _ _ _ _ Hy) as F2. rewrite N1, E1 in F1. rewrite N2, E2 in F2.
    cbn [map] in F1, F2.
    inversion F1 as [|? c1 ? ? G1 F1a]; subst; clear F1. inversion F1a as [|? c2 ? ? G2 F1b]; subst; clear F1a. inversion F1b as [|? c3 ? ? G3 F1c]; subst; clear F1b.
    inversion F1c as [|? c4 ? ? G4 F1d]; subst; clear F1c. inversion F1d as [|? c5 ? ? G5 F1e]; subst; clear F1d. inversion F1e; subst.
    inversion F2 as [|? d1 ? ? K1 F2a]; subst; clear F2. inversion F2a as [|? d2 ? ? K2 F2b]; subst; clear F2a. inversion F2b as [|? d3 ? ? K3 F2c]; subst; clear F2b.
    inversion F2c as [|? d4 ? ? K4 F2d]; subst; clear F2c. inversion F2d as [|? d5 ? ? K5 F2e]; subst; clear F2d. inversion F2e; subst.
    assert (Hall' : forall p, In p [c; tt; r; d; l] -> dget S' (snd p * n + (n - 1 - fst p)) = dget S (fst p * n + snd p)).
    { intros p Hp. rewrite Forall_forall in Hall. destruct (Hall p Hp) as [P1 P2]. apply (Ht (fst p) (snd p) P1 P2). }
    rewrite Hall' in K1, K2, K3, K4, K5 by (cbn; auto 10).
    exists c1, c2, c3, c4, c5. split; [congruence|]. cbn. right. left.
    assert (c1 = d1) by congruence. assert (c5 = d2) by congruence. assert (c2 = d3) by congruence. assert (c3 = d4) by congruence. assert (c4 = d5) by congruence. subst. congruence.
  Qed.

  Theorem turn_run n (t : dict (list A) A) obj fuel fuel' (u0 : U) (c c' : cond Z A) T (g : args) uf traj :
    9 <= n * n -> 0 < n -> five t -> consistent t -> ctrbl_init n n t true = Ok obj ->
    static g (stateless (ctrbl_rule obj)) -> 1 <= T -> (Z.to_nat T <= fuel')%nat ->
    Z.of_nat (length (to_dict W c')) = n * n ->
    (forall v, 0 <= v < n * n -> exists x, dget (to_dict W c) v = Some x) ->
    dturn n (to_dict W c) (to_dict W c') ->
    evolve W fuel u0 (cr_network obj) (Some c) (Some T) None g = Ok (uf, traj) ->
    exists uf' traj', evolve W fuel' u0 (cr_network obj) (Some c') (Some T) None g = Ok (uf', traj') /\
      Forall2 (fun s s' => exists S S', activities W s = Ok (shown_acts S) /\ activities W s' = Ok (shown_acts S') /\ dturn n S S') traj traj'.
  Proof.
    intros Hn Hn0 Hf Hcons Einit Hst HT Hfuel Hlen Hcov Hturn E.
    destruct (ctrbl_network n n t true Hn0 Hn0 Hn) as (net & Hnd & Hnodes & Hnb & Ei). rewrite Einit in Ei. symmetry in Ei. inv_bind Ei t' Et'. injection Ei as <-.
    cbn [cr_network] in *. set (h := ctrbl_rule _) in *.
    destruct (stateless_forward W fuel u0 net c T g h uf traj Hst Hnd HT E) as (hs & Hl & Hshown & Hz & Hsync).
    assert (Hclosed : closed net).
    { intros v Hv. apply Hnodes in Hv. destruct (cell_surj n n v Hn0 Hv) as (Ev & Ha & Hb). destruct (Hnb _ _ Ha Hb) as (N & inc & Ei & _).
      change (v = v / n * n + v mod n) in Ev. rewrite <- Ev in N, Ei. exists inc, (ctrbl_cells n n (v / n) (v mod n)). split; [assumption|]. split; [assumption|].
      intros u Hu. apply Hnodes. apply (cells_range n n _ _ u Hn0 Hn0 Ha Hb Hu). }
    assert (Hpos : forall v, In v (nodes net) -> exists a b, v = b * n + (n - 1 - a) /\ 0 <= a < n /\ 0 <= b < n).
    { intros v Hv. apply Hnodes in Hv. destruct (cell_surj n n v Hn0 Hv) as (Ev & Ha & Hb). exists (n - 1 - v mod n), (v / n). unfold cell in Ev. lia. }
    assert (Hcell : forall a b, 0 <= a < n -> 0 <= b < n -> In (a * n + b) (nodes net)) by (intros a b Ha Hb; apply Hnodes; apply (cell_bound n n a b Ha Hb)).
    assert (Hh : forall x y : ctx, turned (x_nacts x) (x_nacts y) -> h x = h y).
    { intros x y Ht. unfold h, ctrbl_rule. cbn [cr_table]. rewrite (table_invariant t t' Hf Hcons Et' _ _ Ht). destruct (turned_len _ _ Ht) as [-> ->]. reflexivity. }
    set (Inv := fun hist : list acts => (length hist <= length hs)%nat /\ Forall2 (dturn n) (firstn (length hist) hs) hist).
    assert (Hlast : forall hist S', Inv (hist ++ [S']) -> exists S, nth_error hs (length hist) = Some S /\ dturn n S S').
    { intros hist S' [Hle Hf2]. rewrite app_length in Hle, Hf2. cbn [length] in Hle, Hf2.
      destruct (nth_error hs (length hist)) as [S|] eqn:ES; [|apply nth_error_None in ES; lia]. exists S. split; [reflexivity|].
      apply (Forall2_at _ _ _ (length hist) _ _ Hf2); [rewrite nth_error_firstn_lt by lia; assumption|]. rewrite nth_error_app2, Nat.sub_diag by lia. reflexivity. }
    assert (Hnext : forall (hist : list acts) (S S1 : acts) a b, nth_error hs (length hist) = Some S -> nth_error hs (Datatypes.S (length hist)) = Some S1 -> 0 <= a < n -> 0 <= b < n ->
      exists t0 past (x : ctx) v, ctx_for W net S t0 past tick (a * n + b) x /\ h x = Ok v /\ dget S1 (a * n + b) = Some v).
    { intros hist S S1 a b E0 E1 Ha Hb. destruct (Hsync _ _ _ E0 E1) as [_ Hu]. destruct (Hu _ (Hcell a b Ha Hb)) as (x & v & v' & Hx & Ev & <- & Eg). eauto 8. }
    destruct (stateless_run_upto W fuel' u0 net c' T g h Inv Hst Hnd HT Hfuel) as (uf' & traj' & hs' & E' & Hl' & Hshown' & [Hle' Hturns] & Hz' & Hsync').
    - apply Nat2Z.inj. rewrite Hlen. unfold net_len. rewrite <- (map_length fst). change (map fst (net_nodes net)) with (nodes net).
      assert (Hp : Permutation (nodes net) (zrange 0 (n * n))).
      { apply NoDup_Permutation; [assumption|apply NoDup_zrange|]. intros v. rewrite Hnodes, in_zrange. tauto. }
      rewrite (Permutation_length Hp), length_zrange. lia.
    - assumption.
    - intros v Hv. destruct (Hpos v Hv) as (a & b & -> & Ha & Hb). rewrite (Hturn a b Ha Hb). apply Hcov. apply (cell_bound n n a b Ha Hb).
    - split; [cbn [length]; lia|]. cbn [length]. destruct hs as [|S0 hs0]; [discriminate|]. injection Hz as ->. cbn [firstn]. constructor; [assumption|constructor].
    - intros hist S' v x Hlt Hi Hv Hx. destruct (Hlast hist S' Hi) as (S & ES & Ht). destruct (Hpos v Hv) as (a & b & -> & Ha & Hb).
      destruct (nth_error hs (Datatypes.S (length hist))) as [S1|] eqn:ES1; [|apply nth_error_None in ES1; lia].
      destruct (Hnext hist S S1 a b ES ES1 Ha Hb) as (t0 & past & x0 & a0 & Hx0 & Eh & _). exists a0. rewrite <- Eh. symmetry. apply Hh.
      apply (ctx_turn n net S S' a b t0 _ past _ x0 x Hn0 Ha Hb (fun a b Ha Hb => proj1 (Hnb a b Ha Hb)) Ht Hx0 Hx).
    - intros hist S' S2 Hlt Hi Hcov2 Hu. destruct (Hlast hist S' Hi) as (S & ES & Ht).
      destruct (nth_error hs (Datatypes.S (length hist))) as [S1|] eqn:ES1; [|apply nth_error_None in ES1; lia].
      destruct Hi as [Hle Hf2]. rewrite app_length in Hle, Hf2. cbn [length] in Hle, Hf2.
      split; [rewrite !app_length; cbn [length]; lia|]. rewrite !app_length. cbn [length].
      replace (length hist + 1 + 1)%nat with (Datatypes.S (Datatypes.S (length hist))) by lia. rewrite (firstn_snoc hs (Datatypes.S (length hist)) S1 ES1).
      replace (length hist + 1)%nat with (Datatypes.S (length hist)) in Hf2 by lia. apply Forall2_app; [assumption|]. constructor; [|constructor].
      intros a b Ha Hb. destruct (Hnext hist S S1 a b ES ES1 Ha Hb) as (t0 & past & x0 & a0 & Hx0 & Eh & Eg). rewrite Eg.
      destruct Hu as [_ Hu]. assert (Hv : In (b * n + (n - 1 - a)) (nodes net)) by (apply Hcell; lia).
      destruct (Hu _ Hv) as (y & v & v' & Hy & Ev & -> & Eg2). rewrite Eg2. f_equal.
      assert (Ehy : h x0 = h y) by (apply Hh; apply (ctx_turn n net S S' a b t0 _ past _ x0 y Hn0 Ha Hb (fun a b Ha Hb => proj1 (Hnb a b Ha Hb)) Ht Hx0 Hy)). congruence.
    - exists uf', traj'. split; [assumption|]. assert (Ell : length hs' = length hs) by lia. rewrite Ell, firstn_all in Hturns.
      clear - Hshown Hshown' Hturns. revert traj Hshown traj' Hshown'. induction Hturns as [|S S' hs hs' Ht Hf IH]; intros traj Hs traj' Hs'; inversion Hs; inversion Hs'; subst; constructor; eauto.
  Qed.
End Turn.
