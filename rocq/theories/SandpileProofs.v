(** Proofs about Sandpile.v *)
From Verif Require Import Py PyFacts ListFacts Network Topology TopologySpec TopologyProofs TopologyProofs2 TopologyProofs3 TopologyProofs4.
From Verif Require Import Evolve EvolveSpec EvolveProofs EvolveProofs2 EvolveProofs3 EvolveStatic CtrblSpec CtrblProofs HopfieldProofs SandpileSpec Sandpile.
Open Scope string_scope.
Open Scope list_scope.
Open Scope Z_scope.

Lemma step_back n x y : 0 <= x < n -> 0 <= y < n -> (x = (y - 1) mod n <-> y = (x + 1) mod n).
Proof.
  intros Hx Hy. split; intros E.
  - subst x. rewrite Zplus_mod_idemp_l. replace (y - 1 + 1) with y by lia. symmetry. apply Z.mod_small. assumption.
  - subst y. rewrite Zminus_mod_idemp_l. replace (x + 1 - 1) with x by lia. symmetry. apply Z.mod_small. assumption.
Qed.

(** the cells of the von Neumann neighbourhood are the cell and those beside it *)
Lemma in_cells rows cols u v : 0 < rows -> 0 < cols -> 0 <= u < rows * cols -> 0 <= v < rows * cols ->
  In u (ctrbl_cells rows cols (v / cols) (v mod cols)) <-> u = v \/ beside rows cols u v = true.
Proof.
  intros Hr Hc Hu Hv. destruct (cell_surj rows cols u Hc Hu) as (Eu & Hua & Hub). destruct (cell_surj rows cols v Hc Hv) as (Ev & Hva & Hvb).
  unfold beside, next_to. rewrite andb_true_iff, orb_true_iff, !andb_true_iff, !orb_true_iff, negb_true_iff, !Z.eqb_eq, Z.eqb_neq.
  set (a := v / cols) in *. set (b := v mod cols) in *. set (c := u / cols) in *. set (d := u mod cols) in *. unfold cell in Eu, Ev.
  assert (Hcell : forall x y, 0 <= y < cols -> (x * cols + y = u <-> c = x /\ d = y)).
  { intros x y Hy. rewrite Eu. split; [|intros [-> ->]; reflexivity]. intros E. symmetry in E. apply (cell_inj cols) in E; [|assumption|assumption]. assumption. }
  pose proof (Z.mod_pos_bound (b + 1) cols Hc). pose proof (Z.mod_pos_bound (b - 1) cols Hc).
  pose proof (step_back rows c a Hua Hva) as S1. pose proof (step_back cols d b Hub Hvb) as S2.
  unfold ctrbl_cells. cbn [In]. rewrite !Hcell by assumption. destruct (Z.eq_dec u v) as [E|Hne].
  - split; [auto|]. intros _. left. apply Hcell; [assumption|]. lia.
  - split.
    + intros Hin. right. split; [assumption|]. destruct Hin as [[E1 E2]|[[E1 E2]|[[E1 E2]|[[E1 E2]|[[E1 E2]|[]]]]]].
      * exfalso. apply Hne. rewrite Eu, Ev, E1, E2. reflexivity.
      * right. split; [assumption|]. left. apply S1. assumption.
      * left. auto.
      * right. auto.
      * left. split; [assumption|]. left. apply S2. assumption.
    + intros [E|[_ [[E1 [E2|E2]]|[E1 [E2|E2]]]]]; [contradiction| | | |].
      * apply S2 in E2. auto 8.
      * auto 8.
      * apply S1 in E2. auto 8.
      * auto 8.
Qed.

Lemma beside_sym rows cols u v : beside rows cols u v = beside rows cols v u.
Proof.
  unfold beside, next_to. rewrite (Z.eqb_sym u v), (Z.eqb_sym (u / cols) (v / cols)), (Z.eqb_sym (u mod cols) (v mod cols)). f_equal. f_equal; f_equal; apply orb_comm.
Qed.

(** nodes and neighbourhoods of the network *)
Lemma vn_network rows cols : 0 < rows -> 0 < cols -> 9 <= rows * cols ->
  exists net, cellular_automaton2d rows cols 1 "von Neumann" true = Ok net /\ NoDup (nodes net) /\
    (forall v, In v (nodes net) <-> 0 <= v < rows * cols) /\ closed net /\
    forall v l, 0 <= v < rows * cols -> nbrs_of net v l -> NoDup l /\ forall u, In u l <-> 0 <= u < rows * cols /\ (u = v \/ beside rows cols u v = true).
Proof.
  intros Hr Hc Hn.
  destruct (ca2d_ordered rows cols 1 "von Neumann" crit_von_neumann Hr Hc Hn ltac:(lia) ltac:(auto)) as (net & rs & E & Erot & Ek & Hnd & Hnodes & Hv).
  exists net. split; [assumption|]. split; [assumption|]. split; [assumption|].
  assert (Hset : forall v, 0 <= v < rows * cols -> exists T inc, dget rs v = Some T /\ in_edges net v = Ok inc /\ NoDup T /\ forall u, In u T <-> 0 <= u < rows * cols /\ (u = v \/ beside rows cols u v = true)).
  { intros v Hvr. destruct (cell_surj rows cols v Hc Hvr) as (Ev & Ha & Hb). destruct (Hv _ _ Ha Hb) as (T & l & inc & E1 & E2 & E3 & Hasc & Hub & Hin & j & Hj & ET & En). rewrite <- Ev in E1, E2. exists T, inc. split; [assumption|]. split; [assumption|].
    assert (Hp : Permutation T l) by (rewrite ET; apply rot_perm). split; [eapply Permutation_NoDup; [symmetry; exact Hp|apply asc_NoDup; assumption]|]. intros u. split.
    - intros Hu. apply (Permutation_in _ Hp) in Hu. pose proof (Hub u Hu) as Hur. split; [assumption|]. apply in_cells; [assumption|assumption|assumption|assumption|].
      destruct (cell_surj rows cols u Hc Hur) as (Eu & Hcu & Hdu). rewrite Eu in Hu. apply Hin in Hu; [|assumption|assumption]. rewrite (torus_ext rows cols _ _ _ _ _ _ (von_neumann_crit 1 _)) in Hu.
      apply torus_sym in Hu; [|unfold von_neumann_offset; lia|assumption|assumption]. apply vn_offsets in Hu; try assumption. rewrite <- Eu in Hu. assumption.
    - intros [Hur Hu]. apply (Permutation_in _ (Permutation_sym Hp)). apply in_cells in Hu; [|assumption|assumption|assumption|assumption].
      destruct (cell_surj rows cols u Hc Hur) as (Eu & Hcu & Hdu). rewrite Eu in Hu |- *. apply Hin; [assumption|assumption|]. rewrite (torus_ext rows cols _ _ _ _ _ _ (von_neumann_crit 1 _)).
      apply torus_sym; [unfold von_neumann_offset; lia|assumption|assumption|]. apply vn_offsets; assumption. }
  split.
  - intros v Hvn. apply Hnodes in Hvn. destruct (Hset v Hvn) as (T & inc & E1 & E2 & Hnt & Hin). exists inc, T. split; [assumption|]. unfold nbrs_of. rewrite Erot. split; [assumption|]. intros u Hu. apply Hnodes. apply Hin. assumption.
  - intros v l Hvr Hl. unfold nbrs_of in Hl. rewrite Erot in Hl. destruct (Hset v Hvr) as (T & inc & E1 & _ & Hnt & Hin). rewrite E1 in Hl. injection Hl as <-. auto.
Qed.

Lemma boundary_border rows cols v : 0 < rows -> 0 < cols -> 0 <= v < rows * cols -> existsb (Z.eqb v) (get_boundary_indices rows cols) = border rows cols v.
Proof.
  intros Hr Hc Hv. destruct (cell_surj rows cols v Hc Hv) as (Ev & Ha & Hb). unfold cell in Ev.
  assert (Hiff : In v (get_boundary_indices rows cols) <-> border rows cols v = true).
  { unfold border. rewrite !orb_true_iff, !Z.eqb_eq. set (a := v / cols) in *. set (b := v mod cols) in *. clearbody a b. unfold get_boundary_indices. rewrite !in_app_iff, !in_map_iff. setoid_rewrite in_zrange. split.
    - intros [(x & E & Hx)|[(x & E & Hx)|[(x & E & Hx)|(x & E & Hx)]]]; rewrite Ev in E; apply (cell_inj cols) in E; lia.
    - intros [[[E|E]|E]|E]; [left; exists b|right; left; exists b|right; right; left; exists a|right; right; right; exists a]; (split; [rewrite Ev; rewrite ?E; lia|lia]). }
  destruct (border rows cols v) eqn:Eb.
  - apply existsb_exists. exists v. split; [apply Hiff; reflexivity|apply Z.eqb_refl].
  - destruct (existsb _ _) eqn:Ee; [|reflexivity]. apply existsb_exists in Ee. destruct Ee as (w & Hw & E). apply Z.eqb_eq in E. subst w. apply Hiff in Hw. congruence.
Qed.

Definition ind (b : bool) : Z := if b then 1 else 0.

Lemma fold_count l : forall a, fold_left (fun a na => if 4 <=? na then a + 1 else a) l a = a + zsum (map (fun na => ind (4 <=? na)) l).
Proof. induction l as [|x l IH]; intros a; cbn [fold_left map]; [cbn; lia|]. rewrite IH, zsum_cons. unfold ind. destruct (4 <=? x); lia. Qed.

Lemma pop_perm {X} (l : list X) k x : nth_error l k = Some x -> Permutation l (x :: firstn k l ++ skipn (S k) l).
Proof. intros E. apply nth_error_split in E. destruct E as (l1 & l2 & -> & <-). rewrite firstn_app, Nat.sub_diag, firstn_all, firstn_O, app_nil_r. replace (skipn (S (length l1)) (l1 ++ x :: l2)) with l2. - symmetry. apply Permutation_middle. - rewrite skipn_app. replace (S (length l1) - length l1)%nat with 1%nat by lia. rewrite skipn_all2 by lia. reflexivity. Qed.

Lemma Forall2_pop {X Y} (P : X -> Y -> Prop) l l' k : Forall2 P l l' -> Forall2 P (firstn k l ++ skipn (S k) l) (firstn k l' ++ skipn (S k) l').
Proof. intros Hf. revert k. induction Hf as [|x y l l' Hp Hf IH]; intros k; [destruct k; constructor|]. destruct k as [|k]; [exact Hf|]. cbn. constructor; [assumption|apply IH]. Qed.

Lemma zsum_map_perm {X} (f : X -> Z) l l' : Permutation l l' -> zsum (map f l) = zsum (map f l').
Proof. intros Hp. apply zsum_perm, Permutation_map, Hp. Qed.

Lemma zsum_filter_ind {X} (p : X -> bool) (f : X -> Z) l : zsum (map f (filter p l)) = zsum (map (fun x => ind (p x) * f x) l).
Proof. induction l as [|x l IH]; [reflexivity|]. cbn [filter map]. rewrite zsum_cons, <- IH. unfold ind. destruct (p x); cbn [map]; rewrite ?zsum_cons; lia. Qed.

(** the rule computes [sand_next] *)
Lemma sand_rule {I BA BN} (W : env Z Z Z BA BN) rows cols o S t past inp v (x : node_ctx Z Z Z I) : 0 < rows -> 0 < cols -> 0 <= v < rows * cols ->
  sp_boundary o = get_boundary_indices rows cols ->
  (forall l, nbrs_of (sp_net o) v l -> NoDup l /\ forall u, In u l <-> 0 <= u < rows * cols /\ (u = v \/ beside rows cols u v = true)) ->
  ctx_for W (sp_net o) S t past inp v x -> sandpile_rule o x = Ok (sand_next (sp_closed o) rows cols (cell_value S) v).
Proof.
  intros Hr Hc Hv Ebd Hl Hx. destruct Hx as [Elab _ _ Hn Hacts _ Hcur _ _]. unfold sandpile_rule, sand_next. rewrite Elab, Ebd, (boundary_border rows cols v Hr Hc Hv).
  destruct (sp_closed o && border rows cols v); [reflexivity|]. destruct (Hl _ Hn) as [Hnd Hin].
  destruct (py_find_in (x_nbrs x) v) as [k Ek]; [apply Hin; auto|]. rewrite Ek. cbn [of_opt rbind]. apply py_find_some in Ek.
  assert (Hk : (k < length (x_nacts x))%nat) by (rewrite <- (Forall2_len _ _ _ Hacts); apply nth_error_Some; congruence).
  unfold list_pop. destruct (Nat.ltb_spec k (length (x_nacts x))); [|lia]. cbn [rbind]. rewrite fold_count.
  set (rest := firstn k (x_nbrs x) ++ skipn (Datatypes.S k) (x_nbrs x)). assert (Hp : Permutation (x_nbrs x) (v :: rest)) by (apply pop_perm; assumption).
  pose proof (Forall2_pop _ _ _ k Hacts) as Hf. fold rest in Hf. set (na := firstn k (x_nacts x) ++ skipn (Datatypes.S k) (x_nacts x)) in *.
  assert (Esum : zsum (map (fun a => ind (4 <=? a)) na) = zsum (map (fun u => ind (4 <=? cell_value S u)) rest)).
  { clear - Hf. clearbody rest na. induction Hf as [|u a l l' E Hf IH]; [reflexivity|]. cbn [map]. rewrite !zsum_cons, IH. assert (Eu : cell_value S u = a) by (unfold cell_value; rewrite E; reflexivity). rewrite Eu. reflexivity. }
  assert (Hrest : Permutation rest (filter (fun u => beside rows cols u v) (zrange 0 (rows * cols)))).
  { assert (Hnd' : NoDup (v :: rest)) by (eapply Permutation_NoDup; [exact Hp|assumption]). apply NoDup_cons_iff in Hnd'. destruct Hnd' as [Hvn Hnr]. apply NoDup_Permutation; [assumption|apply NoDup_filter, NoDup_zrange|].
    intros u. rewrite filter_In, in_zrange. split.
    - intros Hu. assert (Hu' : In u (x_nbrs x)) by (eapply Permutation_in; [symmetry; exact Hp|right; assumption]). apply Hin in Hu'. destruct Hu' as [H1 [E1|H2]]; [exfalso; apply Hvn; rewrite <- E1; assumption|auto].
    - intros [H1 H2]. assert (Hu' : In u (x_nbrs x)) by (apply Hin; auto). eapply Permutation_in in Hu'; [|exact Hp]. destruct Hu' as [E1|Hu']; [|assumption]. unfold beside in H2. rewrite E1, Z.eqb_refl in H2. discriminate. }
  rewrite Esum, (zsum_map_perm _ _ _ Hrest), zsum_filter_ind.
  assert (Er : received rows cols (cell_value S) v = zsum (map (fun u => ind (beside rows cols u v) * ind (4 <=? cell_value S u)) (zrange 0 (rows * cols)))).
  { unfold received. apply zsum_ext. intros u _. unfold ind. destruct (beside rows cols u v), (4 <=? cell_value S u); reflexivity. }
  rewrite Er. assert (Ecur : cell_value S v = x_cur x) by (unfold cell_value; rewrite Hcur; reflexivity). rewrite Ecur. f_equal. destruct (4 <=? x_cur x); lia.
Qed.

(** ** counting *)
Lemma zsum_swap {X Y} (f : X -> Y -> Z) l l' : zsum (map (fun x => zsum (map (f x) l')) l) = zsum (map (fun y => zsum (map (fun x => f x y) l)) l').
Proof.
  induction l as [|x l IH]; cbn [map].
  - induction l' as [|y l' IH]; [reflexivity|]. cbn [map]. rewrite zsum_cons, <- IH. reflexivity.
  - rewrite zsum_cons, IH, <- zsum_plus. reflexivity.
Qed.

Definition axis (n x : Z) : list Z := if n <=? 1 then [] else if n =? 2 then [(x + 1) mod n] else [(x + 1) mod n; (x - 1) mod n].

Lemma axis_in n x y : 0 <= x < n -> 0 <= y < n -> (In y (axis n x) <-> y <> x /\ next_to n y x = true).
Proof.
  intros Hx Hy. pose proof (step_back n y x Hy Hx) as S1.
  assert (Hd : 2 <= n -> (x + 1) mod n <> x /\ (x - 1) mod n <> x).
  { intros Hn. split; intros E; symmetry in E.
    - pose proof (Z.div_mod (x + 1) n ltac:(lia)) as D. rewrite <- E in D. assert ((x + 1) / n = 0 \/ (x + 1) / n >= 1 \/ (x + 1) / n <= -1) as [D'|[D'|D']] by lia; nia.
    - pose proof (Z.div_mod (x - 1) n ltac:(lia)) as D. rewrite <- E in D. assert ((x - 1) / n = 0 \/ (x - 1) / n >= 1 \/ (x - 1) / n <= -1) as [D'|[D'|D']] by lia; nia. }
  unfold axis, next_to. rewrite orb_true_iff, !Z.eqb_eq. destruct (Z.leb_spec n 1); [cbn; lia|]. specialize (Hd ltac:(lia)). destruct (Z.eqb_spec n 2) as [->|].
  - assert (E2 : (x - 1) mod 2 = (x + 1) mod 2) by (replace (x + 1) with (x - 1 + 1 * 2) by lia; rewrite Z.mod_add by lia; reflexivity). rewrite E2 in S1. cbn [In]. split.
    + intros [E|[]]. split; [rewrite <- E; apply Hd|]. right. auto.
    + intros [_ [E|E]]; left; [symmetry; apply S1; assumption|auto].
  - cbn [In]. split.
    + intros [E|[E|[]]]; (split; [rewrite <- E; apply Hd|]); [right; auto|left; apply S1; auto].
    + intros [_ [E|E]]; [right; left; symmetry; apply S1; assumption|left; auto].
Qed.

Lemma axis_nodup n x : NoDup (axis n x).
Proof.
  unfold axis. destruct (Z.leb_spec n 1); [constructor|]. destruct (Z.eqb_spec n 2); [repeat constructor; auto|]. constructor; [|repeat constructor; auto]. cbn [In]. intros [E|[]].
  pose proof (Z.div_mod (x + 1) n ltac:(lia)) as D. pose proof (Z.div_mod (x - 1) n ltac:(lia)) as D'. rewrite E in D'. assert ((x + 1) / n = (x - 1) / n \/ (x + 1) / n >= (x - 1) / n + 1 \/ (x + 1) / n <= (x - 1) / n - 1) as [?|[?|?]] by lia; nia.
Qed.

Lemma axis_length n x : Z.of_nat (length (axis n x)) = axis_degree n.
Proof. unfold axis, axis_degree. destruct (n <=? 1); [reflexivity|]. destruct (n =? 2); reflexivity. Qed.

Lemma axis_range n x y : 0 < n -> In y (axis n x) -> 0 <= y < n.
Proof.
  intros Hn Hy. unfold axis in Hy. destruct (n <=? 1); [destruct Hy|]. destruct (n =? 2); cbn in Hy; repeat (destruct Hy as [<-|Hy]; [apply Z.mod_pos_bound; assumption|]); destruct Hy.
Qed.

Lemma NoDup_map_inj {X Y} (f : X -> Y) l : (forall x y, In x l -> In y l -> f x = f y -> x = y) -> NoDup l -> NoDup (map f l).
Proof.
  induction l as [|x l IH]; intros Hf Hnd; [constructor|]. inversion Hnd as [|a b Hx Hnd']. subst. cbn. constructor.
  - intros Hin. apply in_map_iff in Hin. destruct Hin as (y & E & Hy). apply Hx. rewrite (Hf x y); [assumption|left; reflexivity|right; assumption|congruence].
  - apply IH; [intros; apply Hf; [right; assumption|right; assumption|assumption]|assumption].
Qed.

(** the cells beside [v]: those of its row, those of its column *)
Lemma beside_list rows cols v : 0 < rows -> 0 < cols -> 0 <= v < rows * cols ->
  Permutation (filter (fun u => beside rows cols u v) (zrange 0 (rows * cols))) (map (fun d => v / cols * cols + d) (axis cols (v mod cols)) ++ map (fun c => c * cols + v mod cols) (axis rows (v / cols))).
Proof.
  intros Hr Hc Hv. destruct (cell_surj rows cols v Hc Hv) as (Ev & Ha & Hb). unfold cell in Ev. set (a := v / cols) in *. set (b := v mod cols) in *.
  assert (Hself : forall n x, 0 <= x < n -> ~ In x (axis n x)) by (intros n x Hx Hin; apply axis_in in Hin; [|assumption|assumption]; tauto).
  apply NoDup_Permutation; [apply NoDup_filter, NoDup_zrange| |].
  - assert (H1 : NoDup (map (fun d => a * cols + d) (axis cols b))) by (apply NoDup_map_inj; [intros; lia|apply axis_nodup]).
    assert (H2 : NoDup (map (fun c => c * cols + b) (axis rows a))) by (apply NoDup_map_inj; [intros x y _ _ E; nia|apply axis_nodup]).
    assert (H3 : forall u, In u (map (fun d => a * cols + d) (axis cols b)) -> ~ In u (map (fun c => c * cols + b) (axis rows a))).
    { intros u Hu Hu'. apply in_map_iff in Hu, Hu'. destruct Hu as (d & <- & Hd). destruct Hu' as (c & E & Hcx). pose proof (axis_range cols b d Hc Hd). apply (cell_inj cols) in E; [|assumption|assumption]. destruct E as [-> E]. apply (Hself rows a Ha). assumption. }
    revert H1 H3. generalize (map (fun d => a * cols + d) (axis cols b)). induction l as [|y l IH]; intros H1 H3; [assumption|]. apply NoDup_cons_iff in H1. destruct H1 as [Hy Hl]. cbn [app]. constructor; [|apply IH; [assumption|intros u Hu; apply H3; right; assumption]]. intros Hin. apply in_app_or in Hin. destruct Hin as [Hin|Hin]; [contradiction|]. apply (H3 y (or_introl eq_refl) Hin).
  - intros u. rewrite filter_In, in_zrange, in_app_iff, !in_map_iff. split.
    + intros [Hu Hbs]. destruct (cell_surj rows cols u Hc ltac:(lia)) as (Eu & Hua & Hub). unfold cell in Eu. unfold beside in Hbs. change (v / cols) with a in Hbs. change (v mod cols) with b in Hbs. set (c := u / cols) in *. set (d := u mod cols) in *. clearbody a b c d.
      rewrite andb_true_iff, orb_true_iff, !andb_true_iff, negb_true_iff, !Z.eqb_eq, Z.eqb_neq in Hbs. destruct Hbs as [Hne [[E Hs]|[E Hs]]].
      * left. exists d. split; [lia|]. apply axis_in; [assumption|assumption|]. split; [|assumption]. intros E'. apply Hne. rewrite Eu, Ev, E, E'. reflexivity.
      * right. exists c. split; [lia|]. apply axis_in; [assumption|assumption|]. split; [|assumption]. intros E'. apply Hne. rewrite Eu, Ev, E, E'. reflexivity.
    + assert (Hdm : forall c d, 0 <= d < cols -> (c * cols + d) / cols = c /\ (c * cols + d) mod cols = d).
      { intros c d Hd. rewrite Z.add_comm. rewrite Z.div_add, Z.mod_add by lia. rewrite Z.div_small, Z.mod_small by lia. lia. }
      intros [(d & <- & Hd)|(c & <- & Hd)].
      * pose proof (axis_range cols b d Hc Hd) as Hdr. apply axis_in in Hd; [|assumption|assumption]. split; [pose proof (cell_bound rows cols a d Ha Hdr) as X; unfold cell in X; lia|].
        unfold beside. destruct (Hdm a d Hdr) as [-> ->]. change (v / cols) with a. change (v mod cols) with b. destruct Hd as [Hne Hs]. rewrite Hs, Z.eqb_refl. cbn [andb orb]. destruct (Z.eqb_spec (a * cols + d) v); [exfalso; lia|reflexivity].
      * pose proof (axis_range rows a c Hr Hd) as Hdr. apply axis_in in Hd; [|assumption|assumption]. split; [pose proof (cell_bound rows cols c b Hdr Hb) as X; unfold cell in X; lia|].
        unfold beside. destruct (Hdm c b Hb) as [-> ->]. change (v / cols) with a. change (v mod cols) with b. destruct Hd as [Hne Hs]. rewrite Hs, Z.eqb_refl. cbn [andb]. rewrite orb_true_r. destruct (Z.eqb_spec (c * cols + b) v) as [E|]; [exfalso; nia|reflexivity].
Qed.

Lemma degree rows cols v : 0 < rows -> 0 < cols -> 0 <= v < rows * cols -> zsum (map (fun u => ind (beside rows cols u v)) (zrange 0 (rows * cols))) = axis_degree rows + axis_degree cols.
Proof.
  intros Hr Hc Hv. rewrite (zsum_ext _ (fun u => ind (beside rows cols u v) * 1)) by (intros; lia). rewrite <- zsum_filter_ind.
  assert (Hl : forall {X} (l : list X), zsum (map (fun _ => 1) l) = Z.of_nat (length l)) by (intros X l; induction l; [reflexivity|cbn [map]; rewrite zsum_cons; cbn [length]; lia]).
  rewrite Hl, (Permutation_length (beside_list rows cols v Hr Hc Hv)), app_length, !map_length, Nat2Z.inj_add, !axis_length. lia.
Qed.

(** grains received are those sent *)
Lemma received_total rows cols s (h : Z -> Z) : zsum (map (fun v => h v * received rows cols s v) (zrange 0 (rows * cols))) =
  zsum (map (fun u => ind (4 <=? s u) * zsum (map (fun v => ind (beside rows cols v u) * h v) (zrange 0 (rows * cols)))) (zrange 0 (rows * cols))).
Proof.
  set (l := zrange 0 (rows * cols)).
  rewrite (zsum_ext _ (fun v => zsum (map (fun u => h v * (if beside rows cols u v && (4 <=? s u) then 1 else 0)) l))) by (intros v _; unfold received; fold l; rewrite <- zsum_mul; reflexivity).
  rewrite zsum_swap. apply zsum_ext. intros u _. rewrite <- zsum_mul. apply zsum_ext. intros v _. rewrite (beside_sym rows cols u v). unfold ind. destruct (beside rows cols v u), (4 <=? s u); cbn [andb]; lia.
Qed.

Definition free_next rows cols s v : Z := s v + received rows cols s v - (if 4 <=? s v then 4 else 0).

Lemma free_balance rows cols s : 0 < rows -> 0 < cols ->
  grains rows cols (free_next rows cols s) = grains rows cols s - (4 - axis_degree rows - axis_degree cols) * toppling rows cols s.
Proof.
  intros Hr Hc. unfold grains, toppling, free_next. set (l := zrange 0 (rows * cols)).
  rewrite (zsum_ext _ (fun v => (s v + 1 * received rows cols s v) + (-4) * (if 4 <=? s v then 1 else 0))) by (intros v _; destruct (4 <=? s v); lia).
  rewrite !zsum_plus. pose proof (received_total rows cols s (fun _ => 1)) as E. cbn beta in E. fold l in E. rewrite E.
  rewrite (zsum_ext (fun u => ind (4 <=? s u) * _) (fun u => (axis_degree rows + axis_degree cols) * (if 4 <=? s u then 1 else 0))).
  - rewrite !zsum_mul. lia.
  - intros u Hu. apply in_zrange in Hu. rewrite (zsum_ext _ (fun v => ind (beside rows cols v u))) by (intros; lia). unfold l. rewrite degree by (assumption || lia). unfold ind. destruct (4 <=? s u); lia.
Qed.

Lemma zsum_le {X} (f g : X -> Z) l : (forall x, In x l -> f x <= g x) -> zsum (map f l) <= zsum (map g l).
Proof. induction l as [|x l IH]; intros Hfg; [cbn; lia|]. cbn [map]. rewrite !zsum_cons. specialize (Hfg x (or_introl eq_refl)) as Hx. specialize (IH (fun y Hy => Hfg y (or_intror Hy))). lia. Qed.
Lemma zsum_nonneg {X} (f : X -> Z) l : (forall x, In x l -> 0 <= f x) -> 0 <= zsum (map f l).
Proof. induction l as [|x l IH]; intros Hf; [cbn; lia|]. cbn [map]. rewrite zsum_cons. specialize (Hf x (or_introl eq_refl)) as Hx. specialize (IH (fun y Hy => Hf y (or_intror Hy))). lia. Qed.

Lemma received_nonneg rows cols s v : 0 <= received rows cols s v.
Proof. unfold received. apply zsum_nonneg. intros u _. destruct (_ && _); lia. Qed.
Lemma toppling_nonneg rows cols s : 0 <= toppling rows cols s.
Proof. unfold toppling. apply zsum_nonneg. intros u _. destruct (4 <=? s u); lia. Qed.
Lemma axis_degree_le n : 0 <= axis_degree n <= 2.
Proof. unfold axis_degree. destruct (n <=? 1); [lia|]. destruct (n =? 2); lia. Qed.

Definition nonneg rows cols (s : Z -> Z) : Prop := forall v, 0 <= v < rows * cols -> 0 <= s v.

Lemma next_nonneg closed rows cols s : nonneg rows cols s -> nonneg rows cols (sand_next closed rows cols s).
Proof. intros Hs v Hv. specialize (Hs v Hv). unfold sand_next. pose proof (received_nonneg rows cols s v). destruct (closed && border rows cols v); [lia|]. destruct (Z.leb_spec 4 (s v)); lia. Qed.

Lemma closed_nonincreasing closed rows cols s : 0 < rows -> 0 < cols -> nonneg rows cols s -> grains rows cols (sand_next closed rows cols s) <= grains rows cols s.
Proof.
  intros Hr Hc Hs. transitivity (grains rows cols (free_next rows cols s)).
  - apply zsum_le. intros v Hv. apply in_zrange in Hv. specialize (Hs v ltac:(lia)). unfold sand_next, free_next. pose proof (received_nonneg rows cols s v). destruct (closed && border rows cols v); [|lia]. destruct (Z.leb_spec 4 (s v)); lia.
  - rewrite free_balance by assumption. pose proof (toppling_nonneg rows cols s). pose proof (axis_degree_le rows). pose proof (axis_degree_le cols). nia.
Qed.
