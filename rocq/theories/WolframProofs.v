(** * The configuration round trip of the Wolfram model *)
From Coq Require Import Permutation Sorted DecimalString DecimalNat.
From Verif Require Import Py PyFacts ListFacts Network NetworkSpec NetworkProofs NetworkProofs2 Evolve Utils UtilsProofs WolframSpec Wolfram SubstProofs SubstProofs2.
Open Scope string_scope.
Open Scope list_scope.
Open Scope Z_scope.

(** ** general facts *)
Lemma filter_disjoint {X} (p q : X -> bool) l : (forall x, p x = true -> q x = false) -> Permutation (filter p l ++ filter q l) (filter (fun x => p x || q x) l).
Proof.
  intros Hd. induction l as [|x l IH]; [constructor|]. cbn. destruct (p x) eqn:Ep.
  - rewrite (Hd x Ep). cbn. constructor. assumption.
  - destruct (q x); cbn; [|assumption]. rewrite <- Permutation_middle. constructor. assumption.
Qed.
Lemma group_by {X K} `{EqD K} (f : X -> K) es : forall ks, NoDup ks -> Permutation (flat_map (fun k => filter (fun e => eqb (f e) k) es) ks) (filter (fun e => if in_dec eqd (f e) ks then true else false) es).
Proof.
  induction ks as [|k ks IH]; intros Hnd; [cbn; induction es; [constructor|assumption]|]. inversion Hnd as [|k' ks' Hk Hnd']. subst. cbn [flat_map]. rewrite (IH Hnd'). rewrite filter_disjoint.
  - apply Permutation_refl'. apply filter_ext. intros e. destruct (eqb (f e) k) eqn:E; cbn [orb].
    + apply eqb_eq in E. destruct (in_dec eqd (f e) (k :: ks)) as [_|Hn]; [reflexivity|]. exfalso. apply Hn. left. auto.
    + apply eqb_neq in E. destruct (in_dec eqd (f e) ks) as [Hi|Hi], (in_dec eqd (f e) (k :: ks)) as [Hj|Hj]; try reflexivity; exfalso.
      * apply Hj. right. assumption.
      * destruct Hj as [Hj|Hj]; congruence.
  - intros e E. apply eqb_eq in E. destruct (in_dec eqd (f e) ks) as [Hi|Hi]; [exfalso; rewrite E in Hi; contradiction|reflexivity].
Qed.
Lemma filter_all_true {X} (p : X -> bool) l : (forall x, In x l -> p x = true) -> filter p l = l.
Proof. apply filter_true. Qed.
Lemma Permutation_filter {X} (p : X -> bool) l l' : Permutation l l' -> Permutation (filter p l) (filter p l').
Proof. induction 1; cbn; [constructor|destruct (p x); [constructor|]; assumption|destruct (p x), (p y); try apply perm_swap; reflexivity|etransitivity; eassumption]. Qed.

Lemma str_nat_inj a b : str_nat a = str_nat b -> a = b.
Proof.
  unfold str_nat. intros E. apply DecimalNat.Unsigned.to_uint_inj. assert (E' : NilEmpty.uint_of_string (NilEmpty.string_of_uint (Nat.to_uint a)) = NilEmpty.uint_of_string (NilEmpty.string_of_uint (Nat.to_uint b))) by (rewrite E; reflexivity).
  rewrite !NilEmpty.usu in E'. congruence.
Qed.

(** string order *)
Lemma string_leb_total x y : String.leb x y = true \/ String.leb y x = true.
Proof. unfold String.leb. rewrite (String.compare_antisym y x). destruct (String.compare x y); cbn; auto. Qed.
Lemma ascii_compare_nat a b : Ascii.compare a b = N.compare (Ascii.N_of_ascii a) (Ascii.N_of_ascii b).
Proof. reflexivity. Qed.
Lemma string_leb_trans x y z : String.leb x y = true -> String.leb y z = true -> String.leb x z = true.
Proof.
  unfold String.leb. revert y z. induction x as [|a x IH]; intros y z.
  - destruct z; [reflexivity|cbn; reflexivity].
  - destruct y as [|b y]; [cbn; discriminate|]. destruct z as [|c z]; [cbn; intros _ E; discriminate|]. cbn [String.compare]. rewrite !ascii_compare_nat.
    destruct (N.compare_spec (Ascii.N_of_ascii a) (Ascii.N_of_ascii b)) as [E1|E1|E1]; destruct (N.compare_spec (Ascii.N_of_ascii b) (Ascii.N_of_ascii c)) as [E2|E2|E2];
      destruct (N.compare_spec (Ascii.N_of_ascii a) (Ascii.N_of_ascii c)) as [E3|E3|E3]; try discriminate; try reflexivity; try lia; try (exfalso; lia). apply IH.
Qed.

(** ** building the network *)
Notation wedge := (Z * Z * wattrs)%type.
Notation wgraph := (graph Z aval).

Fixpoint path_edges (label : string) (hyper : bool) (p num : Z) (rel : relation) : list wedge :=
  match rel with [] => [] | v :: rest => (p, v, prev_state label hyper num) :: path_edges label hyper v (num + 1) rest end.
Definition rel_edges (c : nat) (rel : relation) : list wedge :=
  match rel with
  | [] => []
  | [n] => [(n, n, [("label", AStr (str_nat (c + 1))); ("unary", ABool true)])]
  | p :: rest => path_edges (str_nat (c + 1)) (2 <? Z.of_nat (length rel)) p 0 rest
  end.
Fixpoint config_edges (c : nat) (cfg : config) : list wedge :=
  match cfg with [] => [] | rel :: rest => rel_edges c rel ++ config_edges (c + 1) rest end.

Lemma prev_state_kw label hyper num : kwargs_clash ["self"; "i"; "j"] (prev_state label hyper num) = false.
Proof. destruct hyper; reflexivity. Qed.

Lemma edges_add_edge (g : wgraph) i j a : g_edges (spec_add_edge g i j a) = g_edges g ++ [(i, j, a)].
Proof.
  unfold spec_add_edge. cbn [g_edges]. f_equal. unfold ensure_node. destruct (is_nodeb g i); [destruct (is_nodeb g j); reflexivity|]. destruct (is_nodeb (mkG (g_nodes g ++ [(i, [])]) (g_edges g)) j); reflexivity.
Qed.

Lemma add_path_R label hyper : forall rel p num last net g, R net g ->
  exists net' g', add_path label hyper (Some p) num last rel net = (net', Ok (fold_left Z.max rel last)) /\ R net' g' /\ net_rot net' = net_rot net /\ g_edges g' = g_edges g ++ path_edges label hyper p num rel.
Proof.
  induction rel as [|v rel IH]; intros p num last net g HR; [exists net, g; cbn; rewrite app_nil_r; auto|]. cbn [add_path]. unfold mbind.
  destruct (add_edge_R net g p v (prev_state label hyper num) HR (prev_state_kw label hyper num)) as (n1 & E1 & HR1 & Hr1). rewrite E1.
  destruct (IH v (num + 1) (if last <? v then v else last) n1 _ HR1) as (n2 & g2 & E2 & HR2 & Hr2 & He2). exists n2, g2. split.
  - rewrite E2. cbn [fold_left]. do 3 f_equal. destruct (Z.ltb_spec last v); lia.
  - split; [assumption|]. split; [congruence|]. rewrite He2, edges_add_edge. cbn [path_edges]. rewrite <- app_assoc. reflexivity.
Qed.

Lemma add_relations_R : forall cfg c last net g, R net g ->
  exists net' g', add_relations c last cfg net = (net', Ok (fold_left Z.max (concat cfg) last)) /\ R net' g' /\ net_rot net' = net_rot net /\ g_edges g' = g_edges g ++ config_edges c cfg.
Proof.
  induction cfg as [|rel cfg IH]; intros c last net g HR; [exists net, g; cbn; rewrite app_nil_r; auto|]. cbn [add_relations concat config_edges]. rewrite fold_left_app.
  destruct rel as [|p rest].
  - cbn [add_path fold_left rel_edges app]. unfold mbind. cbn [mret]. apply IH. assumption.
  - cbn [add_path]. destruct (add_path_R (str_nat (c + 1)) (2 <? Z.of_nat (length (p :: rest))) rest p 0 (if last <? p then p else last) net g HR) as (n1 & g1 & E1 & HR1 & Hr1 & He1).
    unfold mbind. rewrite E1. destruct rest as [|q rest].
    + cbn [fold_left]. destruct (add_edge_R n1 g1 p p [("label", AStr (str_nat (c + 1))); ("unary", ABool true)] HR1 eq_refl) as (n2 & E2 & HR2 & Hr2). rewrite E2.
      destruct (IH (c + 1)%nat (if last <? p then p else last) n2 _ HR2) as (n3 & g3 & E3 & HR3 & Hr3 & He3). exists n3, g3. split.
      * rewrite E3. do 3 f_equal. destruct (Z.ltb_spec last p); lia.
      * split; [assumption|]. split; [congruence|]. rewrite He3, edges_add_edge, He1. cbn [path_edges rel_edges]. rewrite app_nil_r, <- app_assoc. reflexivity.
    + cbn [mret]. set (l1 := fold_left Z.max (q :: rest) (if last <? p then p else last)) in *. destruct (IH (c + 1)%nat l1 n1 g1 HR1) as (n3 & g3 & E3 & HR3 & Hr3 & He3). exists n3, g3. split.
      * rewrite E3. do 3 f_equal. unfold l1. cbn [fold_left]. do 2 f_equal. destruct (Z.ltb_spec last p); lia.
      * split; [assumption|]. split; [congruence|]. rewrite He3, He1, <- app_assoc. reflexivity.
Qed.

Lemma init_R cfg : exists net g, init_network_and_conditions cfg = Ok (net, fold_left Z.max (concat cfg) 0) /\ R net g /\ net_rot net = None /\ g_edges g = config_edges 0 cfg.
Proof.
  unfold init_network_and_conditions. destruct (add_relations_R cfg 0 0 empty_network empty_graph R_empty) as (net & g & E & HR & Hr & He). exists net, g. rewrite E. auto.
Qed.

(** ** reading the network back *)
Definition read_edge (eh : tables) (e : wedge) : res tables := read_connection (src e) (tgt e) eh (dat e).

Definition visit (g : wgraph) : list wedge :=
  flat_map (fun v => flat_map (fun i => map (fun a => (i, v, a)) (between g i v)) (in_neighbours g v)) (map fst (g_nodes g)).

Lemma between_filter (g : wgraph) i v : map (fun a => (i, v, a)) (between g i v) = filter (fun e => eqb (src e) i) (filter (fun e => eqb (tgt e) v) (g_edges g)).
Proof.
  unfold between. rewrite filter_filter, map_map. induction (g_edges g) as [|e es IH]; [reflexivity|]. cbn. destruct (eqb (src e) i) eqn:E1, (eqb (tgt e) v) eqn:E2; cbn; try assumption. f_equal; [|assumption].
  apply eqb_eq in E1, E2. subst. destruct e as [[a b] c]. reflexivity.
Qed.

Lemma visit_perm (g : wgraph) : graph_ok g -> Permutation (visit g) (g_edges g).
Proof.
  intros [Hnd Hin]. unfold visit.
  transitivity (flat_map (fun v => filter (fun e => eqb (tgt e) v) (g_edges g)) (map fst (g_nodes g))).
  - clear Hnd Hin. induction (map fst (g_nodes g)) as [|v l IH]; [constructor|]. cbn [flat_map]. apply Permutation_app; [|assumption]. clear IH.
    rewrite (flat_map_ext_in _ (fun i => filter (fun e => eqb (src e) i) (filter (fun e => eqb (tgt e) v) (g_edges g)))) by (intros i _; apply between_filter).
    rewrite group_by by apply NoDup_dedup. rewrite filter_true; [reflexivity|]. intros e He. destruct (in_dec eqd (src e) (in_neighbours g v)) as [_|Hn]; [reflexivity|]. exfalso. apply Hn. apply in_dedup. apply in_map. exact He.
  - rewrite group_by by assumption. rewrite filter_true; [reflexivity|]. intros e He. destruct (in_dec eqd (tgt e) (map fst (g_nodes g))) as [_|Hn]; [reflexivity|]. exfalso. apply Hn. apply (Hin e He).
Qed.

Lemma read_network_visit net g : R net g -> read_network net = rfold read_edge (visit g) ([], []).
Proof.
  intros HR. unfold read_network. rewrite (nodes_R _ _ HR). unfold visit.
  assert (Hg : forall l eh, (forall v, In v l -> In v (map fst (g_nodes g))) ->
    rfold (fun eh to_node => in_edges <- in_edges net to_node ;; rfold (fun eh ic => rfold (read_connection (fst ic) to_node) (snd ic) eh) in_edges eh) l eh =
    rfold read_edge (flat_map (fun v => flat_map (fun i => map (fun a => (i, v, a)) (between g i v)) (in_neighbours g v)) l) eh).
  { induction l as [|v l IH]; intros eh Hl; [reflexivity|]. cbn [rfold flat_map]. rewrite rfold_app. rewrite (in_edges_R net g v HR).
    rewrite (proj2 (is_nodeb_true g v)) by (apply Hl; left; reflexivity). cbn [rbind].
    assert (E : forall ns eh, rfold (fun eh ic => rfold (read_connection (fst ic) v) (snd ic) eh) (map (fun i => (i, between g i v)) ns) eh = rfold read_edge (flat_map (fun i => map (fun a => (i, v, a)) (between g i v)) ns) eh).
    { induction ns as [|i ns IHn]; intros eh'; [reflexivity|]. cbn [map rfold flat_map fst snd]. rewrite rfold_app.
      assert (E2 : forall as_ eh, rfold (read_connection i v) as_ eh = rfold read_edge (map (fun a => (i, v, a)) as_) eh) by (induction as_ as [|a as_ IHa]; intros eh2; [reflexivity|]; cbn [rfold map]; unfold read_edge at 1; cbn; destruct (read_connection i v eh2 a); [apply IHa|reflexivity]).
      rewrite E2. destruct (rfold read_edge (map (fun a => (i, v, a)) (between g i v)) eh'); [apply IHn|reflexivity]. }
    rewrite E. destruct (rfold read_edge _ eh); [|reflexivity]. cbn [rbind]. apply IH. intros w Hw. apply Hl. right. assumption. }
  apply Hg. auto.
Qed.

(** what an edge says: its label, and either a whole relation or a part of one *)
Definition e_label (e : wedge) : option string := match dget (dat e) "label" with Some (AStr s) => Some s | _ => None end.
Definition e_whole (e : wedge) : option relation :=
  if dmem (dat e) "unary" then Some [src e] else match dget (dat e) "hyperedge_index" with Some (AInt _) => None | _ => Some [src e; tgt e] end.
Definition e_part (e : wedge) : list ((Z * Z) * Z) :=
  if dmem (dat e) "unary" then [] else match dget (dat e) "hyperedge_index" with Some (AInt i) => [((src e, tgt e), i)] | _ => [] end.
Definition e_ok (e : wedge) : Prop :=
  (exists s, dget (dat e) "label" = Some (AStr s)) /\
  (dmem (dat e) "unary" = true \/ dget (dat e) "hyperedge_index" = None \/ exists i, dget (dat e) "hyperedge_index" = Some (AInt i)).

Definition at_label (l : string) (es : list wedge) : list wedge := filter (fun e => match e_label e with Some s => eqb s l | None => false end) es.
Definition whole_of (es : list wedge) : option relation := fold_left (fun acc e => match e_whole e with Some r => Some r | None => acc end) es None.

Lemma read_edges es : Forall e_ok es -> exists ed hy, rfold read_edge es ([], []) = Ok (ed, hy) /\ NoDup (dkeys ed) /\ NoDup (dkeys hy) /\
  forall l, dget ed l = whole_of (at_label l es) /\ dget hy l = match flat_map e_part (at_label l es) with [] => None | ps => Some ps end.
Proof.
  induction es as [|e es IH] using rev_ind; intros Hok.
  - exists [], []. split; [reflexivity|]. split; [constructor|]. split; [constructor|]. intros l. split; reflexivity.
  - apply Forall_app in Hok. destruct Hok as [Hok He]. inversion He as [|e' es' [[s Es] Hk] _]. subst. destruct (IH Hok) as (ed & hy & E & Hed & Hhy & Hg). rewrite rfold_app, E. cbn [rbind rfold].
    assert (Hat : forall l, at_label l (es ++ [e]) = at_label l es ++ (if eqb s l then [e] else [])).
    { intros l. unfold at_label. rewrite filter_app. cbn [filter]. unfold e_label at 2. rewrite Es. destruct (eqb s l); reflexivity. }
    assert (Hcase : (exists r, e_whole e = Some r /\ e_part e = [] /\ read_edge (ed, hy) e = Ok (dset ed s r, hy)) \/
      (exists i, e_whole e = None /\ e_part e = [((src e, tgt e), i)] /\ read_edge (ed, hy) e = Ok (ed, dset hy s ((match dget hy s with Some l => l | None => [] end) ++ [((src e, tgt e), i)])))).
    { unfold e_whole, e_part, read_edge, read_connection. rewrite Es. cbn [of_opt rbind].
      destruct (dmem (dat e) "unary"); [left; eexists; eauto|]. destruct Hk as [Hk|[Hk|[i Hk]]]; [discriminate| |]; rewrite Hk; [left|right]; eexists; eauto. }
    destruct Hcase as [(r & Ew & Ep & ->)|(i & Ew & Ep & ->)].
    + exists (dset ed s r), hy. cbn. split; [reflexivity|]. split; [apply NoDup_dset; assumption|]. split; [assumption|]. intros l. rewrite Hat. destruct (Hg l) as [G1 G2]. destruct (eqb s l) eqn:Esl.
      * apply eqb_eq in Esl. subst l. split; [rewrite dget_dset_eq; unfold whole_of; rewrite fold_left_app; cbn [fold_left]; rewrite Ew; reflexivity|]. rewrite flat_map_app. cbn [flat_map]. rewrite Ep, !app_nil_r. assumption.
      * rewrite app_nil_r. apply eqb_neq in Esl. split; [rewrite dget_dset_ne by assumption; assumption|assumption].
    + exists ed, (dset hy s ((match dget hy s with Some l => l | None => [] end) ++ [((src e, tgt e), i)])). cbn. split; [reflexivity|]. split; [assumption|]. split; [apply NoDup_dset; assumption|]. intros l. rewrite Hat. destruct (Hg l) as [G1 G2]. destruct (eqb s l) eqn:Esl.
      * apply eqb_eq in Esl. subst l. split; [unfold whole_of; rewrite fold_left_app; cbn [fold_left]; rewrite Ew; exact G1|]. rewrite dget_dset_eq, flat_map_app. cbn [flat_map]. rewrite Ep, app_nil_r, G2.
        destruct (flat_map e_part (at_label s es)); reflexivity.
      * rewrite app_nil_r. apply eqb_neq in Esl. split; [assumption|]. rewrite dget_dset_ne by assumption. assumption.
Qed.

(** ** the edges of a configuration *)
Lemma label_path s hyper p num rel e : In e (path_edges s hyper p num rel) -> dget (dat e) "label" = Some (AStr s) /\ dmem (dat e) "unary" = false /\ (hyper = false -> dget (dat e) "hyperedge_index" = None) /\ (hyper = true -> exists i, dget (dat e) "hyperedge_index" = Some (AInt i)).
Proof.
  revert p num. induction rel as [|v rel IH]; intros p num Hin; [destruct Hin|]. destruct Hin as [<-|Hin]; [|apply (IH _ _ Hin)]. cbn [dat snd]. unfold prev_state. destruct hyper; cbn; repeat split; eauto; discriminate.
Qed.
Lemma rel_edges_label c rel e : In e (rel_edges c rel) -> e_label e = Some (str_nat (c + 1)) /\ e_ok e.
Proof.
  intros Hin. destruct rel as [|p [|q rest]]; [destruct Hin| |].
  - destruct Hin as [<-|[]]. split; [reflexivity|]. split; [eexists; reflexivity|left; reflexivity].
  - apply label_path in Hin. destruct Hin as (E1 & E2 & E3 & E4). split; [unfold e_label; rewrite E1; reflexivity|]. split; [eauto|]. destruct (2 <? Z.of_nat (length (p :: q :: rest))); auto.
Qed.
Lemma config_edges_ok c cfg : Forall e_ok (config_edges c cfg).
Proof.
  revert c. induction cfg as [|rel cfg IH]; intros c; [constructor|]. cbn. apply Forall_app. split; [|apply IH]. apply Forall_forall. intros e He. apply (rel_edges_label c rel e He).
Qed.
Lemma at_label_rel l c rel : at_label l (rel_edges c rel) = if eqb (str_nat (c + 1)) l then rel_edges c rel else [].
Proof.
  unfold at_label. destruct (eqb (str_nat (c + 1)) l) eqn:E; [apply filter_true|apply filter_false]; intros e He; apply rel_edges_label in He; destruct He as [-> _]; assumption.
Qed.
Lemma at_label_config l : forall cfg c, at_label l (config_edges c cfg) = flat_map (fun cr => if eqb (str_nat (fst cr + 1)) l then rel_edges (fst cr) (snd cr) else []) (combine (seq c (length cfg)) cfg).
Proof.
  induction cfg as [|rel cfg IH]; intros c; [reflexivity|]. cbn [config_edges length seq combine flat_map fst snd]. unfold at_label. rewrite filter_app. f_equal; [apply at_label_rel|].
  replace (Datatypes.S c) with (c + 1)%nat by lia. apply IH.
Qed.
Lemma at_label_hit cfg c k rel : nth_error cfg k = Some rel -> at_label (str_nat (c + k + 1)) (config_edges c cfg) = rel_edges (c + k) rel.
Proof.
  rewrite at_label_config. revert c k. induction cfg as [|r cfg IH]; intros c k E; [destruct k; discriminate|]. cbn [length seq combine flat_map fst snd]. destruct k as [|k].
  - injection E as ->. rewrite Nat.add_0_r, eqb_refl. rewrite <- (app_nil_r (rel_edges c rel)) at 2. f_equal. apply flat_map_nil. intros [i r] Hin. cbn [fst snd]. destruct (eqb (str_nat (i + 1)) (str_nat (c + 1))) eqn:E2; [|reflexivity].
    apply eqb_eq, str_nat_inj in E2. apply in_combine_l, in_seq in Hin. lia.
  - cbn in E. destruct (eqb (str_nat (c + 1)) (str_nat (c + Datatypes.S k + 1))) eqn:E2; [apply eqb_eq, str_nat_inj in E2; lia|]. cbn [app]. specialize (IH (Datatypes.S c) k E).
    replace (c + Datatypes.S k)%nat with (Datatypes.S c + k)%nat by lia. exact IH.
Qed.
Lemma at_label_miss cfg c l : (forall k, (k < length cfg)%nat -> l <> str_nat (c + k + 1)) -> at_label l (config_edges c cfg) = [].
Proof.
  intros Hl. rewrite at_label_config. apply flat_map_nil. intros [i r] Hin. cbn [fst snd]. apply in_combine_l, in_seq in Hin. destruct (eqb (str_nat (i + 1)) l) eqn:E; [|reflexivity]. apply eqb_eq in E. exfalso.
  apply (Hl (i - c)%nat); [lia|]. rewrite <- E. do 2 f_equal. lia.
Qed.

(** parts of a hyperedge *)
Fixpoint path_parts (p num : Z) (rel : relation) : hyper_parts := match rel with [] => [] | v :: rest => ((p, v), num) :: path_parts v (num + 1) rest end.
Lemma path_edges_parts s p num rel : flat_map e_part (path_edges s true p num rel) = path_parts p num rel.
Proof. revert p num. induction rel as [|v rel IH]; intros p num; [reflexivity|]. cbn [path_edges flat_map path_parts]. rewrite IH. reflexivity. Qed.
Lemma path_edges_whole s p num rel e : In e (path_edges s true p num rel) -> e_whole e = None.
Proof. intros Hin. apply label_path in Hin. destruct Hin as (_ & E2 & _ & E4). destruct (E4 eq_refl) as [i E]. unfold e_whole. rewrite E2, E. reflexivity. Qed.
Lemma length_path_parts p num rel : length (path_parts p num rel) = length rel.
Proof. revert p num. induction rel as [|v rel IH]; intros p num; [reflexivity|]. cbn. rewrite IH. reflexivity. Qed.
Lemma path_parts_nth : forall rel p num a b i, In ((a, b), i) (path_parts p num rel) -> exists j, i = num + Z.of_nat j /\ nth_error (p :: rel) j = Some a /\ nth_error (p :: rel) (Datatypes.S j) = Some b.
Proof.
  induction rel as [|v rel IH]; intros p num a b i Hin; [destruct Hin|]. destruct Hin as [E|Hin].
  - injection E as <- <- <-. exists 0%nat. split; [lia|]. split; reflexivity.
  - apply IH in Hin. destruct Hin as (j & -> & E1 & E2). exists (Datatypes.S j). split; [lia|]. split; assumption.
Qed.
Lemma path_parts_all : forall rel p num j, (j < length rel)%nat -> exists a b, In ((a, b), num + Z.of_nat j) (path_parts p num rel).
Proof.
  induction rel as [|v rel IH]; intros p num j Hj; [cbn in Hj; lia|]. destruct j as [|j]; [exists p, v; left; rewrite Z.add_0_r; reflexivity|]. cbn [length] in Hj. destruct (IH v (num + 1) j ltac:(lia)) as (a & b & Hin).
  exists a, b. right. replace (num + Z.of_nat (Datatypes.S j)) with (num + 1 + Z.of_nat j) by lia. assumption.
Qed.

Lemma nth_upd_const {X} (l : list X) k x j : nth_error (upd_nth l k (fun _ => x)) j = if Nat.eq_dec k j then (if nth_error l j then Some x else None) else nth_error l j.
Proof.
  revert k j. induction l as [|y l IH]; intros k j; [cbn; destruct (Nat.eq_dec k j); destruct j; reflexivity|]. destruct k as [|k], j as [|j]; try reflexivity. cbn [upd_nth nth_error]. rewrite IH. destruct (Nat.eq_dec k j), (Nat.eq_dec (Datatypes.S k) (Datatypes.S j)); try lia; reflexivity.
Qed.

Lemma merge_ok rel parts : (2 <= length rel)%nat -> (forall p0 rest, rel = p0 :: rest -> Permutation parts (path_parts p0 0 rest)) -> merge_parts parts = Ok rel.
Proof.
  intros Hlen Hperm. destruct rel as [|p0 rest]; [cbn in Hlen; lia|]. specialize (Hperm p0 rest eq_refl). set (rel := p0 :: rest) in *.
  assert (Hn : (length parts + 1 = length rel)%nat) by (rewrite (Permutation_length Hperm), length_path_parts; unfold rel; cbn; lia).
  unfold merge_parts. rewrite Hn.
  assert (Hg : forall ps merged done, length merged = length rel -> (forall x, In x ps -> In x (path_parts p0 0 rest)) ->
    (forall j, In j done -> nth_error merged j = nth_error rel j) ->
    exists merged', rfold (fun merged (part : (Z * Z) * Z) => let '(edge, index) := part in
      merged <- of_opt IndexError (py_set_nth merged index (fun _ => fst edge)) ;;
      if index + 2 =? Z.of_nat (length merged) then of_opt IndexError (py_set_nth merged (-1) (fun _ => snd edge)) else Ok merged) ps merged = Ok merged' /\
      length merged' = length rel /\ (forall j, In j done -> nth_error merged' j = nth_error rel j) /\
      (forall a b j, In ((a, b), Z.of_nat j) ps -> nth_error merged' j = nth_error rel j /\ ((j + 2 = length rel)%nat -> nth_error merged' (j + 1) = nth_error rel (j + 1)))).
  { induction ps as [|[[a b] i] ps IH]; intros merged done Hl Hin Hd.
    - exists merged. split; [reflexivity|]. split; [assumption|]. split; [assumption|]. intros a b j [].
    - destruct (path_parts_nth rest p0 0 a b i (Hin _ (or_introl eq_refl))) as (j & -> & Ea & Eb). fold rel in Ea, Eb. rewrite Z.add_0_l in *. cbn [rfold].
      assert (Hj : (Datatypes.S j < length rel)%nat) by (apply nth_error_Some; congruence).
      unfold py_set_nth at 1. unfold py_index. destruct (Z.leb_spec 0 (Z.of_nat j)); [|lia]. destruct (Z.ltb_spec (Z.of_nat j) (Z.of_nat (length merged))); [|lia]. cbn [andb of_opt rbind]. rewrite Nat2Z.id. cbn [fst].
      set (m1 := upd_nth merged j (fun _ => a)). assert (Hl1 : length m1 = length rel) by (unfold m1; rewrite length_upd_nth; assumption).
      assert (G1 : forall q, q = j \/ nth_error merged q = nth_error rel q -> nth_error m1 q = nth_error rel q).
      { intros q Hq. unfold m1. rewrite nth_upd_const. destruct (Nat.eq_dec j q) as [<-|Hne].
        - rewrite Ea. destruct (nth_error merged j) eqn:E; [reflexivity|]. apply nth_error_None in E. lia.
        - destruct Hq; [congruence|assumption]. }
      rewrite Hl1. destruct (Z.eqb_spec (Z.of_nat j + 2) (Z.of_nat (length rel))) as [Hlast|Hnl].
      + unfold py_set_nth, py_index. rewrite Hl1. cbn [Z.leb Z.compare andb]. replace (- Z.of_nat (length rel) <=? -1) with true by (symmetry; apply Z.leb_le; lia). replace (-1 <? 0) with true by reflexivity. cbn [andb of_opt]. cbn [snd].
        set (m2 := upd_nth m1 (Z.to_nat (-1 + Z.of_nat (length rel))) (fun _ => b)). assert (Hl2 : length m2 = length rel) by (unfold m2; rewrite length_upd_nth; assumption).
        assert (G2 : forall q, q = Datatypes.S j \/ nth_error m1 q = nth_error rel q -> nth_error m2 q = nth_error rel q).
        { intros q Hq. unfold m2. rewrite nth_upd_const. replace (Z.to_nat (-1 + Z.of_nat (length rel))) with (Datatypes.S j) by lia. destruct (Nat.eq_dec (Datatypes.S j) q) as [<-|Hne].
          - rewrite Eb. destruct (nth_error m1 (Datatypes.S j)) eqn:E; [reflexivity|]. apply nth_error_None in E. lia.
          - destruct Hq; [congruence|assumption]. }
        destruct (IH m2 (j :: Datatypes.S j :: done) Hl2) as (m' & E' & Hl' & Hd' & Hp').
        { intros x Hx. apply Hin. right. assumption. }
        { intros q [<-|[<-|Hq]]; [apply G2; right; apply G1; auto|apply G2; auto|apply G2; right; apply G1; right; auto]. }
        exists m'. split; [exact E'|]. split; [assumption|]. split; [intros q Hq; apply Hd'; right; right; assumption|].
        intros a' b' q [Eq|Hq]; [|apply (Hp' a' b'); assumption]. injection Eq as <- <- Eq. assert (j = q) by lia. subst q. split; [apply Hd'; left; reflexivity|]. intros _. replace (j + 1)%nat with (Datatypes.S j) by lia. apply Hd'. right. left. reflexivity.
      + cbn [rbind]. destruct (IH m1 (j :: done) Hl1) as (m' & E' & Hl' & Hd' & Hp').
        { intros x Hx. apply Hin. right. assumption. }
        { intros q [<-|Hq]; apply G1; auto. }
        exists m'. split; [exact E'|]. split; [assumption|]. split; [intros q Hq; apply Hd'; right; assumption|].
        intros a' b' q [Eq|Hq]; [|apply (Hp' a' b'); assumption]. injection Eq as <- <- Eq. assert (j = q) by lia. subst q. split; [apply Hd'; left; reflexivity|]. intros Hc. lia. }
  destruct (Hg parts (repeat 0 (length rel)) [] (repeat_length _ _)) as (m' & E & Hl & _ & Hp).
  - intros x Hx. eapply Permutation_in; eassumption.
  - intros j [].
  - rewrite E. f_equal. apply nth_error_ext. intros q.
    destruct (Nat.lt_ge_cases q (length rel)) as [Hq|Hq]; [|rewrite !(proj2 (nth_error_None _ _)) by lia; reflexivity].
    destruct (Nat.lt_ge_cases (q + 1) (length rel)) as [Hq1|Hq1].
    + destruct (path_parts_all rest p0 0 q) as (a & b & Hin); [unfold rel in Hq1; cbn in Hq1; lia|]. rewrite Z.add_0_l in Hin. apply (Hp a b q). eapply Permutation_in; [symmetry; exact Hperm|exact Hin].
    + destruct (path_parts_all rest p0 0 (q - 1)) as (a & b & Hin); [unfold rel in *; cbn [length] in *; lia|]. rewrite Z.add_0_l in Hin. destruct (Hp a b (q - 1)%nat) as [_ H2]; [eapply Permutation_in; [symmetry; exact Hperm|exact Hin]|].
      replace (q - 1 + 1)%nat with q in H2 by lia. apply H2. lia.
Qed.

(** ** the round trip *)
Definition nonempty (r : relation) : bool := match r with [] => false | _ => true end.

Lemma whole_of_perm es : (forall e, In e es -> e_whole e = None) -> whole_of es = None.
Proof. unfold whole_of. induction es as [|e es IH]; intros Hn; [reflexivity|]. cbn. rewrite (Hn e (or_introl eq_refl)). apply IH. intros x Hx. apply Hn. right. assumption. Qed.

Lemma config_tables vis cfg : Permutation vis (config_edges 0 cfg) ->
  exists ed hy merged, rfold read_edge vis ([], []) = Ok (ed, hy) /\ rmap (fun lp => r <- merge_parts (snd lp) ;; Ok (fst lp, r)) hy = Ok merged /\
    NoDup (dkeys (dupdate ed merged)) /\
    (forall k rel, nth_error cfg k = Some rel -> dget (dupdate ed merged) (str_nat (k + 1)) = if nonempty rel then Some rel else None) /\
    (forall l, (forall k, (k < length cfg)%nat -> l <> str_nat (k + 1)) -> dget (dupdate ed merged) l = None).
Proof.
  intros Hp. destruct (read_edges vis) as (ed & hy & E & Hed & Hhy & Hg).
  { apply Forall_forall. intros e He. pose proof (config_edges_ok 0 cfg) as Hok. rewrite Forall_forall in Hok. apply Hok. eapply Permutation_in; eassumption. }
  assert (Hat : forall k rel, nth_error cfg k = Some rel -> Permutation (at_label (str_nat (k + 1)) vis) (rel_edges k rel)).
  { intros k rel Ek. unfold at_label. rewrite (Permutation_filter _ _ _ Hp). fold (at_label (str_nat (k + 1)) (config_edges 0 cfg)). change (k + 1)%nat with (0 + k + 1)%nat. rewrite (at_label_hit cfg 0 k rel Ek). reflexivity. }
  assert (Hmiss : forall l, (forall k, (k < length cfg)%nat -> l <> str_nat (k + 1)) -> at_label l vis = []).
  { intros l Hl. apply Permutation_nil. unfold at_label. rewrite (Permutation_filter _ _ _ Hp). fold (at_label l (config_edges 0 cfg)). rewrite at_label_miss; [reflexivity|]. exact Hl. }
  assert (Hkind : forall k rel, nth_error cfg k = Some rel ->
    (length rel <= 2)%nat /\ dget ed (str_nat (k + 1)) = (if nonempty rel then Some rel else None) /\ dget hy (str_nat (k + 1)) = None \/
    (3 <= length rel)%nat /\ dget ed (str_nat (k + 1)) = None /\ exists ps, dget hy (str_nat (k + 1)) = Some ps /\ merge_parts ps = Ok rel).
  { intros k rel Ek. specialize (Hat k rel Ek). destruct (Hg (str_nat (k + 1))) as [G1 G2]. rewrite G1, G2. destruct rel as [|p [|q [|r rest]]].
    - left. cbn in Hat. apply Permutation_sym, Permutation_nil in Hat. rewrite Hat. cbn. auto.
    - left. cbn in Hat. apply Permutation_sym, Permutation_length_1_inv in Hat. rewrite Hat. cbn. auto.
    - left. cbn in Hat. apply Permutation_sym, Permutation_length_1_inv in Hat. rewrite Hat. cbn. auto.
    - right. split; [cbn; lia|]. unfold rel_edges in Hat. replace (2 <? Z.of_nat (length (p :: q :: r :: rest))) with true in Hat by (symmetry; apply Z.ltb_lt; cbn [length]; lia).
      split; [apply whole_of_perm; intros e He; eapply path_edges_whole; eapply Permutation_in; eassumption|].
      assert (Hpp : Permutation (flat_map e_part (at_label (str_nat (k + 1)) vis)) (path_parts p 0 (q :: r :: rest))) by (rewrite <- (path_edges_parts (str_nat (k + 1))); apply Permutation_flat_map; assumption).
      destruct (flat_map e_part (at_label (str_nat (k + 1)) vis)) as [|x ps] eqn:Eps; [apply Permutation_length in Hpp; cbn in Hpp; discriminate|]. exists (x :: ps). split; [reflexivity|].
      apply merge_ok; [cbn; lia|]. intros p0 rest0 Er. injection Er as <- <-. assumption. }
  assert (Hkeys : forall l ps, dget hy l = Some ps -> exists k rel, nth_error cfg k = Some rel /\ l = str_nat (k + 1) /\ merge_parts ps = Ok rel /\ (3 <= length rel)%nat).
  { intros l ps El. destruct (in_dec eqd l (map (fun k => str_nat (k + 1)) (seq 0 (length cfg)))) as [Hi|Hi].
    - apply in_map_iff in Hi. destruct Hi as (k & <- & Hk). apply in_seq in Hk. destruct (nth_error cfg k) as [rel|] eqn:Ek; [|apply nth_error_None in Ek; lia]. exists k, rel. split; [assumption|]. split; [reflexivity|].
      destruct (Hkind k rel Ek) as [(_ & _ & E2)|(H3 & _ & ps' & E2 & E3)]; [congruence|]. replace ps with ps' by congruence. auto.
    - exfalso. destruct (Hg l) as [_ G2]. rewrite Hmiss in G2; [cbn in G2; congruence|]. intros k Hk El2. apply Hi. apply in_map_iff. exists k. split; [congruence|]. apply in_seq. lia. }
  assert (Hm : exists merged, rmap (fun lp => r <- merge_parts (snd lp) ;; Ok (fst lp, r)) hy = Ok merged /\ dkeys merged = dkeys hy /\ forall l, dget merged l = match dget hy l with Some ps => match merge_parts ps with Ok r => Some r | Err _ => None end | None => None end).
  { assert (Hall : forall l ps, In (l, ps) hy -> exists r, merge_parts ps = Ok r).
    { intros l ps Hin. apply (dget_in _ _ _ Hhy) in Hin. destruct (Hkeys l ps Hin) as (k & rel & _ & _ & Em & _). eauto. }
    clear - Hall. induction hy as [|[l ps] hy IH]; [exists []; split; [reflexivity|]; split; reflexivity|]. destruct IH as (m & Em & Ek & Hd); [intros l' ps' Hin; apply (Hall l'); right; assumption|].
    destruct (Hall l ps (or_introl eq_refl)) as [r Er]. exists ((l, r) :: m). split; [cbn [rmap fst snd]; rewrite Er; cbn [rbind]; rewrite Em; reflexivity|]. split; [unfold dkeys in *; cbn; f_equal; assumption|].
    intros l'. cbn [dget]. destruct (eqd l' l); [rewrite Er; reflexivity|apply Hd]. }
  destruct Hm as (merged & Em & Ekm & Hdm). exists ed, hy, merged. split; [assumption|]. split; [assumption|].
  assert (Hndm : NoDup (dkeys merged)) by (rewrite Ekm; assumption).
  assert (Hupd : forall l, dget (dupdate ed merged) l = match dget merged l with Some x => Some x | None => dget ed l end).
  { intros l. clear - Hndm. unfold dupdate. revert ed. induction merged as [|[k x] d' IH]; intros d; [reflexivity|]. cbn [fold_left fst snd dget]. inversion Hndm as [|k0 l0 Hk Hnd']. subst. rewrite IH by assumption.
    destruct (eqd l k) as [->|Hne]; [rewrite (proj2 (dget_none d' k) Hk); apply dget_dset_eq|]. destruct (dget d' l); [reflexivity|]. apply dget_dset_ne. congruence. }
  split; [|split].
  - clear - Hed. unfold dupdate. revert ed Hed. induction merged as [|[k x] d' IH]; intros d Hd; [assumption|]. cbn [fold_left]. apply IH, NoDup_dset. assumption.
  - intros k rel Ek. rewrite Hupd, Hdm. destruct (Hkind k rel Ek) as [(_ & E1 & E2)|(H3 & E1 & ps & E2 & E3)]; rewrite E2; [assumption|]. rewrite E3. destruct rel; [cbn in H3; lia|reflexivity].
  - intros l Hl. rewrite Hupd, Hdm. destruct (Hg l) as [G1 G2]. rewrite (Hmiss l Hl) in G1, G2. cbn in G1, G2. rewrite G2. assumption.
Qed.

Definition slt (i j : nat) : Prop := String.leb (str_nat (i + 1)) (str_nat (j + 1)) = true.

Theorem round_trip cfg : exists net last cfg' is_, init_network_and_conditions cfg = Ok (net, last) /\ network_to_config net = Ok cfg' /\ last = fold_left Z.max (concat cfg) 0 /\
  Permutation is_ (filter (fun k => nonempty (nth k cfg [])) (seq 0 (length cfg))) /\ StronglySorted slt is_ /\ cfg' = map (fun k => nth k cfg []) is_.
Proof.
  destruct (init_R cfg) as (net & g & E & HR & _ & He). exists net, (fold_left Z.max (concat cfg) 0).
  destruct (config_tables (visit g) cfg) as (ed & hy & merged & E1 & E2 & Hnd & Hhit & Hmiss); [rewrite <- He; apply visit_perm; apply HR|].
  set (D := dupdate ed merged) in *. set (ids := filter (fun k => nonempty (nth k cfg [])) (seq 0 (length cfg))).
  assert (Hkeys : Permutation (dkeys D) (map (fun k => str_nat (k + 1)) ids)).
  { apply NoDup_Permutation; [assumption| |].
    - apply FinFun.Injective_map_NoDup; [intros a b Eab; apply str_nat_inj in Eab; lia|apply NoDup_filter, seq_NoDup].
    - intros l. split.
      + intros Hl. destruct (in_dec eqd l (map (fun k => str_nat (k + 1)) (seq 0 (length cfg)))) as [Hi|Hi].
        * apply in_map_iff in Hi. destruct Hi as (k & <- & Hk). apply in_map_iff. exists k. split; [reflexivity|]. apply filter_In. split; [assumption|]. apply in_seq in Hk.
          assert (Ek : nth_error cfg k = Some (nth k cfg [])) by (apply nth_error_nth'; lia). specialize (Hhit _ _ Ek). destruct (nonempty (nth k cfg [])); [reflexivity|]. apply dget_none in Hhit. contradiction.
        * exfalso. assert (Hno : dget D l = None). { apply Hmiss. intros k Hk El. apply Hi. apply in_map_iff. exists k. split; [congruence|apply in_seq; lia]. } apply dget_none in Hno. contradiction.
      + intros Hl. apply in_map_iff in Hl. destruct Hl as (k & <- & Hk). apply filter_In in Hk. destruct Hk as [Hk Hne]. apply in_seq in Hk. assert (Ek : nth_error cfg k = Some (nth k cfg [])) by (apply nth_error_nth'; lia).
        specialize (Hhit _ _ Ek). rewrite Hne in Hhit. apply dget_some_key in Hhit. assumption. }
  assert (Hs : Permutation (map (fun k => str_nat (k + 1)) ids) (sorted String.leb (dkeys D))) by (rewrite <- Hkeys; symmetry; apply sorted_perm).
  apply Permutation_sym, Permutation_map_inv in Hs. destruct Hs as (is_ & Es & Hpi). exists (map (fun k => nth k cfg []) is_), is_. split; [assumption|]. split; [|split; [reflexivity|split; [symmetry; assumption|split; [|reflexivity]]]].
  - unfold network_to_config. rewrite (read_network_visit _ _ HR), E1. cbn [rbind]. rewrite E2. cbn [rbind]. fold D. rewrite Es.
    assert (Hin : forall k, In k is_ -> dget D (str_nat (k + 1)) = Some (nth k cfg [])).
    { intros k Hk. eapply Permutation_in in Hk; [|symmetry; exact Hpi]. apply filter_In in Hk. destruct Hk as [Hk Hne]. apply in_seq in Hk. assert (Ek : nth_error cfg k = Some (nth k cfg [])) by (apply nth_error_nth'; lia).
      specialize (Hhit _ _ Ek). rewrite Hne in Hhit. assumption. }
    clear - Hin. induction is_ as [|k l IH]; [reflexivity|]. cbn [map rmap]. rewrite (Hin k (or_introl eq_refl)). cbn [of_opt rbind]. rewrite IH by (intros x Hx; apply Hin; right; assumption). reflexivity.
  - pose proof (sorted_sorted String.leb string_leb_total string_leb_trans (dkeys D)) as Hss. rewrite Es in Hss. clear - Hss.
    induction is_ as [|k l IH]; [constructor|]. cbn [map] in Hss. inversion Hss as [|x y Hs Hf]. subst. constructor; [apply IH; assumption|]. rewrite Forall_map in Hf. exact Hf.
Qed.

Lemma map_nth_seq {X} (d : X) l : map (fun k => nth k l d) (seq 0 (length l)) = l.
Proof.
  apply nth_error_ext. intros q. rewrite nth_error_map. destruct (Nat.lt_ge_cases q (length l)) as [Hq|Hq].
  - rewrite (nth_error_nth' (seq 0 (length l)) 0%nat) by (rewrite seq_length; assumption). rewrite seq_nth by assumption. cbn. symmetry. apply nth_error_nth'. assumption.
  - rewrite !(proj2 (nth_error_None _ _)) by (try rewrite seq_length; lia). reflexivity.
Qed.
Lemma filter_map_comm {X Y} (f : X -> Y) (p : Y -> bool) l : filter p (map f l) = map f (filter (fun x => p (f x)) l).
Proof. induction l as [|x l IH]; [reflexivity|]. cbn. destruct (p (f x)); cbn; rewrite IH; reflexivity. Qed.
