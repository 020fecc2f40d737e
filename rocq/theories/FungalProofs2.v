(** * Proofs about the fungal growth model: initialisation, the activity rule, runs *)
From Coq Require Import QArith Permutation.
From Verif Require Import Py PyFacts ListFacts Network NetworkSpec NetworkProofs NetworkProofs2 NetworkProofs3 LatticeSpec Lattice LatticeProofs Evolve EvolveSpec EvolveProofs EvolveProofs2 EvolveStatic EvolveTopo SandpileSpec HopfieldProofs SandpileProofs FungalSpec Fungal FungalProofs.
Open Scope string_scope.
Open Scope list_scope.
Open Scope Z_scope.

(** ** Links *)
Lemma add_link_spec links ij : NoDup (map key links) -> NoDup (map key (add_link links ij)) /\ (forall k, In k (map key (add_link links ij)) <-> In k (map key links) \/ k = key ij).
Proof.
  intros Hnd. unfold add_link. destruct (existsb _ links) eqn:E.
  - split; [assumption|]. intros k. split; [auto|]. intros [Hk| ->]; [assumption|]. apply existsb_exists in E. destruct E as ([a b] & Hi & Hb). destruct ij as [c d]. cbn [fst snd] in Hb.
    apply in_map_iff. exists (a, b). split; [|assumption]. apply key_eq. apply orb_true_iff in Hb. rewrite !andb_true_iff, !Z.eqb_eq in Hb. assumption.
  - assert (Hni : ~ In (key ij) (map key links)).
    { intros Hi. apply in_map_iff in Hi. destruct Hi as ([a b] & Ek & Hi). destruct ij as [c d]. apply key_eq in Ek. rewrite <- not_true_iff_false in E. apply E, existsb_exists. exists (a, b). split; [assumption|]. cbn [fst snd]. rewrite orb_true_iff, !andb_true_iff, !Z.eqb_eq. assumption. }
    rewrite map_app. cbn [map]. split; [apply NoDup_snoc; assumption|]. intros k. rewrite in_app_iff. cbn. intuition.
Qed.
Lemma links_fold {X} (l : list (Z * Z * X)) : forall acc, NoDup (map key acc) -> let r := fold_left (fun ls e => add_link ls (fst e)) l acc in
  NoDup (map key r) /\ (forall k, In k (map key r) <-> In k (map key acc) \/ In k (map key (map fst l))).
Proof.
  induction l as [|e l IH]; intros acc Hnd; cbn zeta; cbn [fold_left]; [split; [assumption|intros k; cbn; tauto]|]. destruct (add_link_spec acc (fst e) Hnd) as [H1 H2]. destruct (IH _ H1) as [H3 H4]. cbn zeta in *. split; [assumption|].
  intros k. rewrite H4, H2. cbn. intuition.
Qed.
Lemma any_order_keys links out : any_order links out -> Permutation (map key links) (map key out).
Proof.
  intros (l & Hp & Hf). etransitivity; [apply Permutation_map; exact Hp|]. assert (E : map key l = map key out); [|rewrite E; reflexivity]. clear Hp. induction Hf as [|[a b] [c d] l out Hab Hf IH]; [reflexivity|]. cbn [map]. rewrite IH. f_equal. apply key_eq. cbn in Hab. destruct Hab as [E|E]; injection E as -> ->; auto.
Qed.

Lemma joined_next n a b : 0 <= a < n -> 0 <= b < n -> joined true n a b <-> next_to n a b = true.
Proof.
  intros Ha Hb. unfold joined, next_to. rewrite orb_true_iff, !Z.eqb_eq.
  assert (Hm : forall x, 0 <= x < n -> (x + 1) mod n = if x =? n - 1 then 0 else x + 1).
  { intros x Hx. destruct (Z.eqb_spec x (n - 1)) as [->|]; [replace (n - 1 + 1) with n by lia; apply Z.mod_same; lia|apply Z.mod_small; lia]. }
  rewrite (Hm a Ha), (Hm b Hb). destruct (Z.eqb_spec a (n - 1)), (Z.eqb_spec b (n - 1)); intuition lia.
Qed.
Lemma adjacent_beside w h u v : 0 < w -> 0 < h -> 0 <= u < h * w -> 0 <= v < h * w -> u <> v -> adjacent true [1; w; h] u v <-> beside h w u v = true.
Proof.
  intros Hw Hh Hu Hv Hne. change [1; w; h] with ([1; w] ++ [h]). assert (Hp : Forall (fun d => 0 < d) [1; w]) by (repeat constructor; lia).
  assert (Ev : volume [1; w] = w) by (cbn [volume]; lia). rewrite adjacent_snoc by (rewrite ?Ev; assumption). rewrite !Ev.
  assert (Hmu : 0 <= u mod w < w) by (apply Z.mod_pos_bound; lia). assert (Hmv : 0 <= v mod w < w) by (apply Z.mod_pos_bound; lia).
  assert (Hdu : 0 <= u / w < h) by (split; [apply Z.div_pos; lia|apply Z.div_lt_upper_bound; lia]). assert (Hdv : 0 <= v / w < h) by (split; [apply Z.div_pos; lia|apply Z.div_lt_upper_bound; lia]).
  assert (Huv : u / w = v / w -> u mod w = v mod w -> False) by (intros E1 E2; apply Hne; rewrite (Z.div_mod u w), (Z.div_mod v w), E1, E2 by lia; reflexivity).
  change [1; w] with ([1] ++ [w]). assert (Hp1 : Forall (fun d => 0 < d) [1]) by (repeat constructor; lia). assert (Ev1 : volume [1] = 1) by reflexivity.
  rewrite adjacent_snoc by (rewrite ?Ev1; lia || assumption). rewrite !Ev1, !Z.mod_1_r, !Z.div_1_r, !joined_next by assumption.
  unfold beside. rewrite andb_true_iff, negb_true_iff, Z.eqb_neq, orb_true_iff, !andb_true_iff, !Z.eqb_eq. intuition.
Qed.

Lemma fungal_links w h : 0 < w -> 0 < h -> exists net : network Z Q, lattice [1; w; h] true false 0 = Ok net /\ let links := fold_left (fun ls e => add_link ls (fst e)) (edges net) [] in
  NoDup (map key links) /\ forall u v, In (key (u, v)) (map key links) <-> 0 <= u < h * w /\ 0 <= v < h * w /\ beside h w u v = true.
Proof.
  intros Hw Hh. destruct (lattice_spec (V:=Q) [1; w; h] true false 0) as (net & E & _ & (g & HR) & _ & He & Hb); [discriminate|repeat constructor; lia|].
  assert (Ev : volume [1; w; h] = h * w) by (cbn [volume]; lia). rewrite Ev in *. exists net. split; [assumption|].
  destruct (links_fold (edges net) []) as [H1 H2]; [constructor|]. cbn zeta in *. split; [assumption|].
  assert (Hin : forall u v, In (u, v) (map fst (edges net)) <-> 0 <= u < h * w /\ 0 <= v < h * w /\ beside h w u v = true).
  { intros u v. assert (Hed : In (u, v) (map fst (edges net)) <-> edge net u v <> Err KeyError).
    { rewrite (edge_R _ _ _ _ HR). change (between g u v) with (betw (g_edges g) u v). transitivity (In (u, v) (map fst (g_edges g))).
      - split; apply Permutation_in; apply Permutation_map; [|symmetry]; apply edges_R; assumption.
      - rewrite <- betw_in. destruct (betw (g_edges g) u v); split; congruence. }
    split.
    - intros Hi. pose proof Hi as Hi'. apply in_map_iff in Hi'. destruct Hi' as (e & Ee & Hie). apply He in Hie. rewrite Ee in Hie. cbn [fst snd] in Hie. destruct Hie as (Hu & Hv & _). split; [lia|]. split; [lia|].
      apply Hed in Hi. destruct (Hb u v) as (_ & _ & H3); [lia|lia|]. rewrite !Z.sub_0_r in H3. destruct (Z.eq_dec u v) as [Heq|Hne]; [exfalso; apply Hi, H3; auto|].
      destruct (beside h w u v) eqn:Eb; [reflexivity|]. exfalso. apply Hi, H3. left. rewrite adjacent_beside by (lia || assumption). congruence.
    - intros (Hu & Hv & Hbe). apply Hed. destruct (Hb u v) as (H1' & _ & _); [lia|lia|]. rewrite !Z.sub_0_r in H1'. assert (Hne : u <> v) by (intros ->; unfold beside in Hbe; rewrite Z.eqb_refl in Hbe; discriminate).
      rewrite H1'; [discriminate|assumption|]. apply adjacent_beside; lia || assumption. }
  intros u v. rewrite H2. split.
  - intros [[]|Hi]. apply in_map_iff in Hi. destruct Hi as ([a b] & Ek & Hi). apply key_eq in Ek. apply Hin in Hi. destruct Ek as [[-> ->]|[-> ->]]; [assumption|]. rewrite beside_sym. tauto.
  - intros Hx. right. apply in_map_iff. exists (u, v). split; [reflexivity|]. apply Hin. assumption.
Qed.

(** ** The resource layer *)
Lemma mark_loop idxs : forall layer, (forall i, In i idxs -> (i < length layer)%nat) -> exists layer', rfold mark_resource idxs layer = Ok layer' /\ length layer' = length layer /\
  forall i, nth_error layer' i = if in_dec Nat.eq_dec i idxs then (if (i <? length layer)%nat then Some 1%Q else None) else nth_error layer i.
Proof.
  induction idxs as [|j idxs IH]; intros layer Hb; [exists layer; split; [reflexivity|]; split; reflexivity|]. cbn [rfold]. unfold mark_resource at 1.
  pose proof (Hb j (or_introl eq_refl)) as Hj. destruct (Nat.ltb_spec j (length layer)); [|lia]. cbn [rbind].
  assert (Hlen : length (upd_nth layer j (fun _ => 1%Q)) = length layer) by apply length_upd_nth.
  destruct (IH (upd_nth layer j (fun _ => 1%Q))) as (l' & E & Hl & Hn); [intros i Hi; rewrite Hlen; apply Hb; right; assumption|]. exists l'. split; [assumption|]. split; [congruence|].
  intros i. rewrite Hn, Hlen. destruct (in_dec Nat.eq_dec i idxs) as [Hi|Hi]; destruct (in_dec Nat.eq_dec i (j :: idxs)) as [Hi'|Hi']; try reflexivity; try (exfalso; apply Hi'; right; assumption).
  - destruct Hi' as [<-|Hi']; [|contradiction]. destruct (Nat.ltb_spec j (length layer)); [|lia]. rewrite nth_error_upd_nth. destruct (Nat.eq_dec j j); [|congruence]. destruct (nth_error layer j) eqn:Ej; [reflexivity|]. apply nth_error_None in Ej. lia.
  - rewrite nth_error_upd_nth. destruct (Nat.eq_dec i j) as [E'|]; [exfalso; apply Hi'; left; congruence|reflexivity].
Qed.

Lemma in_enumerate {X} (l : list X) i x : In (i, x) (enumerate l) <-> nth_error l i = Some x.
Proof.
  unfold enumerate. assert (Hg : forall (l : list X) s, In (i, x) (combine (seq s (length l)) l) <-> (s <= i)%nat /\ nth_error l (i - s) = Some x).
  { clear l. induction l as [|y l IH]; intros s; [cbn; split; [tauto|intros [_ E]; destruct (i - s)%nat; discriminate]|]. cbn [length seq combine In]. rewrite IH. split.
    - intros [E|[Hs E]]; [injection E as -> ->; rewrite Nat.sub_diag; auto|]. replace (i - s)%nat with (S (i - S s)) by lia. split; [lia|assumption].
    - intros [Hs E]. destruct (Nat.eq_dec s i) as [->|Hne]; [left; rewrite Nat.sub_diag in E; injection E as ->; reflexivity|right]. replace (i - s)%nat with (S (i - S s)) in E by lia. split; [lia|assumption]. }
  rewrite Hg, Nat.sub_0_r. intuition lia.
Qed.

Definition make_layer (N : Z) (ic rl : list Q) : res (list Q) :=
  match rl with
  | _ :: _ => if Z.of_nat (length rl) =? N then Ok rl else Err AssertionError
  | [] => rfold mark_resource (map fst (filter (fun ix => negb (Qeq_bool (snd ix) 0)) (enumerate ic))) (repeat 0%Q (Z.to_nat N))
  end.
Lemma layer_ok N ic rl : 0 <= N -> Z.of_nat (length ic) = N -> rl = [] \/ Z.of_nat (length rl) = N ->
  exists layer, make_layer N ic rl = Ok layer /\ Z.of_nat (length layer) = N /\ forall v, 0 <= v < N -> nth_error layer (Z.to_nat v) = Some (layer_at rl ic v).
Proof.
  intros HN Hic Hrl. destruct rl as [|q rl].
  - cbn [make_layer layer_at]. set (idxs := map fst _).
    assert (Hi : forall i, In i idxs <-> exists x, nth_error ic i = Some x /\ Qeq_bool x 0 = false).
    { intros i. unfold idxs. rewrite in_map_iff. split.
      - intros ([j x] & <- & Hx). apply filter_In in Hx. destruct Hx as [Hx Hb]. apply in_enumerate in Hx. apply negb_true_iff in Hb. eauto.
      - intros (x & Ex & Hb). exists (i, x). split; [reflexivity|]. apply filter_In. split; [apply in_enumerate; assumption|]. cbn [snd]. rewrite Hb. reflexivity. }
    destruct (mark_loop idxs (repeat 0%Q (Z.to_nat N))) as (layer & E & Hl & Hn).
    { intros i Hx. apply Hi in Hx. destruct Hx as (x & Ex & _). assert (Hlt : (i < length ic)%nat) by (apply nth_error_Some; congruence). rewrite repeat_length. lia. }
    exists layer. rewrite repeat_length in *. split; [assumption|]. split; [lia|]. intros v Hv. rewrite Hn.
    destruct (nth_error ic (Z.to_nat v)) as [x|] eqn:Ex; [|apply nth_error_None in Ex; lia]. rewrite (nth_error_nth _ _ _ Ex).
    destruct (in_dec _ _ _) as [Hx|Hx].
    + apply Hi in Hx. destruct Hx as (y & Ey & Hb). assert (y = x) by congruence. subst y. rewrite Hb. destruct (Nat.ltb_spec (Z.to_nat v) (Z.to_nat N)); [reflexivity|lia].
    + destruct (Qeq_bool x 0) eqn:Eb; [|exfalso; apply Hx, Hi; eauto]. rewrite nth_error_repeat by lia. reflexivity.
  - destruct Hrl as [E|Hrl]; [discriminate|]. unfold make_layer. rewrite Hrl, Z.eqb_refl. eexists. split; [reflexivity|]. split; [assumption|]. intros v Hv. unfold layer_at. apply nth_error_nth'. lia.
Qed.

Lemma dget_enumerate {X} (f : nat -> Z) (l : list X) v : (forall i, f i = Z.of_nat i) -> 0 <= v -> dget (map (fun iv => (f (fst iv), snd iv)) (enumerate l)) v = nth_error l (Z.to_nat v).
Proof.
  intros Hf Hv. unfold enumerate. assert (Hg : forall (l : list X) s, (s <= Z.to_nat v)%nat -> dget (map (fun iv => (f (fst iv), snd iv)) (combine (seq s (length l)) l)) v = nth_error l (Z.to_nat v - s)).
  { clear l. induction l as [|y l IH]; intros s Hs; [cbn; destruct (Z.to_nat v - s)%nat; reflexivity|]. cbn [length seq combine map dget fst snd]. rewrite Hf. destruct (eqd v (Z.of_nat s)) as [Ev|Hne].
    - replace (Z.to_nat v - s)%nat with O by lia. reflexivity.
    - rewrite IH by lia. replace (Z.to_nat v - s)%nat with (S (Z.to_nat v - S s)) by lia. reflexivity. }
  rewrite Hg by lia. rewrite Nat.sub_0_r. reflexivity.
Qed.

Lemma init_grown rows cols : grown rows cols (init_network (rows * cols)) [].
Proof.
  split; [|split; [reflexivity|split; [constructor|split; [intros u v []|intros e []]]]].
  split.
  - unfold init_network, repr, cells. cbn [net_nodes g_nodes g_edges]. rewrite map_map. reflexivity.
  - split; [cbn [g_nodes]; rewrite cells_keys; apply NoDup_zrange|intros e []].
Qed.

(** ** The activity rule *)
Lemma Qsum_perm l l' : Permutation l l' -> (Qsum l == Qsum l')%Q.
Proof. induction 1 as [|x l l' _ IH|x y l|l l' l'' _ IH1 _ IH2]; cbn; [reflexivity|rewrite IH; reflexivity|ring|rewrite IH1; exact IH2]. Qed.
Lemma Qsum_ext {X} (f g : X -> Q) l : (forall x, In x l -> (f x == g x)%Q) -> (Qsum (map f l) == Qsum (map g l))%Q.
Proof. induction l as [|x l IH]; intros Hf; [reflexivity|]. cbn. rewrite (Hf x (or_introl eq_refl)), IH by (intros y Hy; apply Hf; right; assumption). reflexivity. Qed.

Lemma targets_count rows cols n es u : grown rows cols n es -> length (targets (rows * cols) (has_edge n) u) = out_count es u.
Proof.
  intros (HR & _ & Hnd & Hs & _). unfold out_count. rewrite <- (map_length tgt). apply Permutation_length, NoDup_Permutation.
  - apply NoDup_filter, NoDup_zrange.
  - apply NoDup_tgt. assumption.
  - intros v. unfold targets. rewrite in_tgt, filter_In, in_zrange, (has_edge_in _ _ _ _ _ HR). split; [tauto|]. intros Hi. split; [apply Hs in Hi; tauto|assumption].
Qed.
Lemma sources_perm rows cols n es v : grown rows cols n es -> Permutation (sources (rows * cols) (has_edge n) v) (dedup (map src (into es v))).
Proof.
  intros (HR & _ & Hnd & Hs & _). apply NoDup_Permutation.
  - apply NoDup_filter, NoDup_zrange.
  - apply NoDup_dedup.
  - intros u. unfold sources. rewrite in_dedup, in_src, filter_In, in_zrange, (has_edge_in _ _ _ _ _ HR). split; [tauto|]. intros Hi. split; [apply Hs in Hi; tauto|assumption].
Qed.
Lemma weighed_betw es0 u v : NoDup (map fst es0) -> In (u, v) (map fst es0) -> betw (map (weigh es0) es0) u v = [[("weight", 1 / inject_Z (Z.of_nat (out_count es0 u)))%Q]].
Proof.
  intros Hnd Hi. assert (Ef : map fst (map (weigh es0) es0) = map fst es0) by (rewrite map_map; reflexivity).
  assert (Hne : betw (map (weigh es0) es0) u v <> []) by (apply betw_in; rewrite Ef; assumption). assert (Hle : (length (betw (map (weigh es0) es0) u v) <= 1)%nat) by (apply betw_one; rewrite Ef; assumption).
  destruct (betw (map (weigh es0) es0) u v) as [|a [|b l]] eqn:E; [congruence| |cbn in Hle; lia]. f_equal. assert (Ha : In a (betw (map (weigh es0) es0) u v)) by (rewrite E; left; reflexivity).
  unfold betw in Ha. apply in_map_iff in Ha. destruct Ha as (e & <- & He). apply filter_In in He. destruct He as [He Hb]. apply in_map_iff in He. destruct He as (e0 & <- & He0). apply andb_true_iff in Hb. destruct Hb as [Hb _]. apply eqb_eq in Hb. unfold src, weigh in Hb. cbn in Hb. unfold weigh, dat. cbn. rewrite Hb. reflexivity.
Qed.
Lemma out_count_weighed es0 v : out_count (map (weigh es0) es0) v = out_count es0 v.
Proof. unfold out_count. rewrite from_map by reflexivity. apply map_length. Qed.

Section Rule.
  Context {BA BN I : Type}.
  Variable W : env Z Q Q BA BN.

  Lemma rule_flow rows cols (o : fungal) n es0 (S : dict Z Q) t inp v (x : node_ctx Z Q Q I) (layer : Z -> Q) :
    grown rows cols n (map (weigh es0) es0) -> (forall u, 0 <= u < rows * cols -> exists a, dget S u = Some a) ->
    (forall u, 0 <= u < rows * cols -> nth_error (f_layer o) (Z.to_nat u) = Some (layer u)) -> Z.of_nat (length (f_layer o)) = rows * cols -> 0 <= v < rows * cols ->
    ctx_for W n S t None inp v x -> exists a, activity_rule o x = Ok a /\
      (a == (match sources (rows * cols) (has_edge n) v with
             | [] => amount S v
             | l => Qsum (map (fun u => amount S u / inject_Z (Z.of_nat (length (targets (rows * cols) (has_edge n) u)))) l)
             end) + (if Qlt_le_dec 0 (amount S v) then f_RE o * layer v else 0))%Q.
  Proof.
    intros Hn Hcov Hlay Hlen Hv [Hlab _ Hacts Hnb _ Hconn Hcur _ _]. pose proof Hn as (HR & Hrot & Hnd & Hs & _).
    assert (Ef : map fst (map (weigh es0) es0) = map fst es0) by (rewrite map_map; reflexivity). rewrite Ef in Hnd, Hs.
    unfold nbrs_of in Hnb. rewrite Hrot in Hnb. destruct Hnb as (inc & Einc & Enb). assert (inc = x_conn x) by congruence. subst inc. clear Einc.
    rewrite (in_edges_R _ _ _ HR) in Hconn. assert (Hnode : is_nodeb (mkG (cells (rows * cols)) (map (weigh es0) es0)) v = true) by (apply is_nodeb_true, is_cell; assumption). rewrite Hnode in Hconn. injection Hconn as Hconn.
    set (nb := in_neighbours (mkG (cells (rows * cols)) (map (weigh es0) es0)) v) in *.
    assert (Enb' : x_nbrs x = nb) by (rewrite Enb, <- Hconn; rewrite map_map; apply map_id).
    pose proof (sources_perm rows cols n _ v Hn) as Hperm. change (dedup _) with nb in Hperm.
    assert (Hnb : forall u, In u nb -> 0 <= u < rows * cols /\ In (u, v) (map fst es0)).
    { intros u Hu. apply (Permutation_in _ (Permutation_sym Hperm)) in Hu. apply filter_In in Hu. destruct Hu as [Hu He]. apply in_zrange in Hu. apply (has_edge_in _ _ _ _ _ HR) in He. rewrite Ef in He. auto. }
    assert (Hfold : forall l acc, incl l nb -> exists r, rfold (fun acc nb => cs <- of_opt KeyError (dget (x_conn x) nb) ;; e <- of_opt IndexError (py_nth cs 0) ;; w <- of_opt KeyError (dget e "weight") ;; a <- of_opt KeyError (dget (x_acts x) nb) ;; Ok (acc + w * a)%Q) l acc = Ok r /\
      (r == acc + Qsum (map (fun u => amount S u / inject_Z (Z.of_nat (length (targets (rows * cols) (has_edge n) u)))) l))%Q).
    { induction l as [|u l IH]; intros acc Hi; [exists acc; split; [reflexivity|cbn; ring]|]. cbn [rfold]. destruct (Hnb u (Hi u (or_introl eq_refl))) as [Hu Hin].
      assert (Ed : dget (x_conn x) u = Some [[("weight", 1 / inject_Z (Z.of_nat (out_count es0 u)))%Q]]).
      { rewrite <- Hconn. rewrite (dget_mapkey (fun i => between (mkG (cells (rows * cols)) (map (weigh es0) es0)) i v)). destruct (in_dec eqd u nb) as [_|Hno]; [|exfalso; apply Hno, Hi; left; reflexivity].
        change (between (mkG (cells (rows * cols)) (map (weigh es0) es0)) u v) with (betw (map (weigh es0) es0) u v). rewrite weighed_betw by assumption. reflexivity. }
      rewrite Ed, Hacts. destruct (Hcov u Hu) as [a Ea]. rewrite Ea. cbn [of_opt rbind]. change (py_nth [[("weight", 1 / inject_Z (Z.of_nat (out_count es0 u)))%Q]] 0) with (Some [("weight", 1 / inject_Z (Z.of_nat (out_count es0 u)))%Q]). cbn [of_opt rbind].
      change (dget [("weight", 1 / inject_Z (Z.of_nat (out_count es0 u)))%Q] "weight") with (Some (1 / inject_Z (Z.of_nat (out_count es0 u)))%Q). cbn [of_opt rbind].
      destruct (IH (acc + 1 / inject_Z (Z.of_nat (out_count es0 u)) * a)%Q) as (r & Er & Hr); [intros y Hy; apply Hi; right; assumption|]. exists r. split; [rewrite Hacts in Er; exact Er|]. rewrite Hr.
      cbn [map Qsum fold_right]. rewrite (targets_count rows cols n _ u Hn), out_count_weighed. fold (Qsum (map (fun u => amount S u / inject_Z (Z.of_nat (length (targets (rows * cols) (has_edge n) u)))) l)%Q). unfold amount at 2. rewrite Ea. unfold Qdiv. ring. }
    assert (Hamt : amount S v = x_cur x) by (unfold amount; rewrite Hcur; reflexivity).
    unfold activity_rule. rewrite Enb'. destruct (Hfold nb (match nb with [] => x_cur x | _ => 0%Q end) (incl_refl _)) as (r & Er & Hr). rewrite Er. cbn [rbind].
    rewrite Hlab. assert (Epy : py_nth (f_layer o) v = Some (layer v)).
    { unfold py_nth, py_index. destruct (Z.leb_spec 0 v); [|lia]. destruct (Z.ltb_spec v (Z.of_nat (length (f_layer o)))); [|lia]. cbn [andb]. apply Hlay. assumption. }
    rewrite Epy. cbn [of_opt rbind]. eexists. split; [reflexivity|]. rewrite Hr. rewrite Hamt.
    assert (Hphi : (f_RE o * (if Qpos (x_cur x) then 1 else 0) * layer v == if Qlt_le_dec 0 (x_cur x) then f_RE o * layer v else 0)%Q).
    { destruct (Qlt_le_dec 0 (x_cur x)) as [Hx|Hx]; destruct (Qpos (x_cur x)) eqn:Ep; try ring.
      - apply Qpos_spec in Hx. congruence.
      - apply Qpos_spec in Ep. exfalso. exact (Qlt_not_le _ _ Ep Hx). }
    rewrite Hphi. apply Qplus_comp; [|reflexivity].
    pose proof (Qsum_perm _ _ (Permutation_map (fun u => (amount S u / inject_Z (Z.of_nat (length (targets (rows * cols) (has_edge n) u))))%Q) Hperm)) as Hsum.
    destruct (sources (rows * cols) (has_edge n) v) as [|s0 sl] eqn:Es.
    - apply Permutation_nil in Hperm. rewrite Hperm. cbn. ring.
    - rewrite Hsum. destruct nb as [|b0 bl] eqn:Eb; [apply Permutation_sym, Permutation_nil in Hperm; discriminate|]. ring.
  Qed.
End Rule.

(** ** Runs *)
Lemma grown_nodes rows cols n es : grown rows cols n es -> nodes n = zrange 0 (rows * cols).
Proof. intros (HR & _). rewrite (nodes_R _ _ HR). apply cells_keys. Qed.

Lemma grown_closed rows cols n es : grown rows cols n es -> closed n.
Proof.
  intros Hn v Hv. pose proof Hn as (HR & Hrot & _ & Hs & _). rewrite (grown_nodes _ _ _ _ Hn), in_zrange in Hv.
  pose proof (in_edges_R _ _ v HR) as E. assert (Hnode : is_nodeb (mkG (cells (rows * cols)) es) v = true) by (apply is_nodeb_true, is_cell; assumption). rewrite Hnode in E.
  eexists _, _. split; [exact E|]. split; [unfold nbrs_of; rewrite Hrot; eexists; split; [exact E|reflexivity]|].
  intros u Hu. rewrite map_map, map_id in Hu. rewrite (grown_nodes _ _ _ _ Hn), in_zrange. unfold in_neighbours in Hu. rewrite in_dedup in Hu. change (edges_into (mkG (cells (rows * cols)) es) v) with (into es v) in Hu. apply in_src in Hu. apply Hs in Hu. tauto.
Qed.

(** what the topology rule does to the links *)
Definition good_links (rows cols : Z) (links : list (Z * Z)) : Prop :=
  NoDup (map key links) /\ forall u v, In (key (u, v)) (map key links) <-> 0 <= u < rows * cols /\ 0 <= v < rows * cols /\ beside rows cols u v = true.

Lemma topology_step rows cols (o : fungal) rand k t (S : dict Z Q) n es : 0 < rows -> 0 < cols -> good_links rows cols (f_links o) -> grown rows cols n es ->
  (forall v, 0 <= v < rows * cols -> exists a, dget S v = Some a) ->
  exists k' n' es0, Fungal.topology_rule o rand k (mkTopo n S t) = Ok (k', Some n') /\ grown rows cols n' (map (weigh es0) es0) /\ growth rows cols S (has_edge n) (has_edge n').
Proof.
  intros Hr Hc [Hnd Hl] Hn Hcov. destruct (grow_loop rows cols rand S n es (f_links o) Hr Hc Hn Hnd) with (k := k) as (k' & n1 & new & E1 & Hn1 & G1 & G2).
  { intros i j Hi. apply Hl. apply in_map. assumption. }
  { assumption. }
  destruct (reweigh_loop rows cols n1 _ Hn1) as (n2 & E2 & Hn2). exists k', n2, (es ++ new). unfold Fungal.topology_rule. cbn [t_net t_acts]. rewrite E1. cbn [rbind]. rewrite E2. split; [reflexivity|]. split; [assumption|].
  pose proof Hn as (HR & _). pose proof Hn2 as (HR2 & _ & _ & Hs2 & _).
  assert (Ef : map fst (map (weigh (es ++ new)) (es ++ new)) = map fst es ++ map fst new) by (rewrite map_map; cbn; apply map_app).
  assert (He : forall u v, has_edge n u v = true <-> In (u, v) (map fst es)) by (intros; eapply has_edge_in; exact HR).
  assert (He' : forall u v, has_edge n2 u v = true <-> In (u, v) (map fst es) \/ In (u, v) (map fst new)) by (intros u v; rewrite (has_edge_in _ _ _ _ _ HR2), Ef, in_app_iff; reflexivity).
  assert (Hf : forall u v, has_edge n u v = false <-> ~ In (u, v) (map fst es)) by (intros; eapply has_edge_out; exact HR).
  split; [|split; [|split]].
  - intros u v. rewrite He, He'. auto.
  - intros u v. rewrite He', He, !Hf. intros [Hi|Hi]; [auto|right]. destruct (G1 u v Hi) as (K1 & K2 & K3 & K4). apply Hl in K1. tauto.
  - intros u v Hi. apply (has_edge_in _ _ _ _ _ HR2) in Hi. apply (has_edge_out _ _ _ _ _ HR2). apply Hs2 in Hi. tauto.
  - intros u v Hu Hv Hb Hau Hav. rewrite !He'. assert (Hk : In (key (u, v)) (map key (f_links o))) by (apply Hl; auto). destruct (G2 u v Hk Hau Hav) as [Hx|Hx]; rewrite map_app, in_app_iff in Hx; tauto.
Qed.

(** weights: every edge carries one over the number of edges that leave its source *)
Definition weighted (rows cols : Z) (n : network Z Q) : Prop := forall e, In e (edges n) -> snd e = [("weight", 1 / inject_Z (Z.of_nat (length (targets (rows * cols) (has_edge n) (fst (fst e))))))%Q].
Lemma weighed_weighted rows cols n es0 : grown rows cols n (map (weigh es0) es0) -> weighted rows cols n.
Proof.
  intros Hn e He. pose proof Hn as (HR & _). apply (Permutation_in _ (edges_R _ _ HR)) in He. cbn [g_edges] in He. apply in_map_iff in He. destruct He as (e0 & <- & He0). cbn [weigh fst snd]. rewrite (targets_count _ _ _ _ _ Hn), out_count_weighed. reflexivity.
Qed.

Section Runs.
  Context {BA BN I : Type}.
  Variable W : env Z Q Q BA BN.

  Theorem fungal_run fuel k0 (ic : list Q) T (g : @args Z Q Q nat I) (o : fungal) rand w h (layer : Z -> Q) : 0 < w -> 0 < h -> (forall i, e_lab W i = Z.of_nat i) ->
    good_links h w (f_links o) -> f_net o = init_network (w * h) -> Z.of_nat (length (f_layer o)) = w * h -> (forall u, 0 <= u < w * h -> nth_error (f_layer o) (Z.to_nat u) = Some (layer u)) ->
    Z.of_nat (length ic) = w * h -> 1 <= T -> (Z.to_nat T <= fuel)%nat ->
    topo_first g (activity_rule o) (Fungal.topology_rule o rand) ->
    exists uf traj hs, evolve W fuel k0 (f_net o) (Some (CList ic)) (Some T) None g = Ok (uf, traj) /\ Z.of_nat (length hs) = T /\ Forall2 (shows (V:=Q)) traj hs /\
      nth_error hs 0 = Some (to_dict W (CList ic), init_network (w * h)) /\
      (forall k S n, nth_error hs k = Some (S, n) -> (exists es, grown h w n es) /\ forall v, 0 <= v < w * h -> exists a, dget S v = Some a) /\
      (forall k S n S' n', nth_error hs k = Some (S, n) -> nth_error hs (Datatypes.S k) = Some (S', n') ->
         growth h w S (has_edge n) (has_edge n') /\ flow (w * h) (has_edge n') (f_RE o) layer S S' /\ weighted h w n').
  Proof.
    intros Hw Hh Hlab Hl Hnet Hlen Hlay Hic HT Hfuel Hg. rewrite (Z.mul_comm w h) in *. rewrite Hnet.
    destruct (topo_first_run W fuel k0 (init_network (h * w)) (CList ic) T g (activity_rule o) (Fungal.topology_rule o rand)
      (fun S n _ => (exists es, grown h w n es) /\ forall v, 0 <= v < h * w -> exists a, dget S v = Some a)
      (fun a b => growth h w (fst a) (has_edge (snd a)) (has_edge (snd b)) /\ flow (h * w) (has_edge (snd b)) (f_RE o) layer (fst a) (fst b) /\ weighted h w (snd b)) Hg HT Hfuel) as (uf & traj & hs & E & H1 & H2 & H3 & H4 & H5).
    - cbn [to_dict]. unfold net_len, init_network. cbn [net_nodes]. rewrite !map_length, length_zrange. unfold enumerate. rewrite combine_length, seq_length. lia.
    - split; [exists []; apply init_grown|]. intros v Hv. cbn [to_dict]. rewrite dget_enumerate by (assumption || lia). destruct (nth_error ic (Z.to_nat v)) as [a|] eqn:Ea; [eauto|]. apply nth_error_None in Ea. lia.
    - intros t S m u [(es & Hm) Hcov]. destruct (topology_step h w o rand u t S m es Hh Hw Hl Hm Hcov) as (u' & m' & es0 & E & Hm' & Hgr). exists u', m'. pose proof (grown_nodes _ _ _ _ Hm') as Hnodes.
      split; [assumption|]. split; [rewrite Hnodes, zrange_cons by nia; discriminate|]. split; [rewrite Hnodes; apply NoDup_zrange|]. split; [eapply grown_closed; exact Hm'|].
      split; [intros v Hv; rewrite Hnodes, in_zrange in Hv; auto|]. split.
      + intros v x Hv Hx. rewrite Hnodes, in_zrange in Hv. destruct (rule_flow W h w o m' es0 S t _ v x layer Hm' Hcov Hlay Hlen Hv Hx) as (a & Ea & _). eauto.
      + intros S' Hcov' [_ Hupd]. rewrite Hnodes in Hupd. split; [split; [eauto|intros v Hv; apply Hcov'; rewrite Hnodes, in_zrange; assumption]|]. cbn [fst snd]. split; [assumption|]. split; [|eapply weighed_weighted; exact Hm'].
        intros v Hv. destruct (Hupd v) as (x & a & a' & Hx & Ea & Ha' & Ed); [apply in_zrange; assumption|]. cbn in Ha'. subst a'.
        destruct (rule_flow W h w o m' es0 S t _ v x layer Hm' Hcov Hlay Hlen Hv Hx) as (b & Eb & Hb). assert (b = a) by congruence. subst b. unfold amount at 1. rewrite Ed. exact Hb.
    - exists uf, traj, hs. split; [assumption|]. split; [assumption|]. split; [assumption|]. split; [assumption|]. split.
      + intros k S n Ek. destruct (H4 k S n Ek) as [_ Hx]. exact Hx.
      + intros k S n S' n' E1 E2. exact (H5 k _ _ E1 E2).
  Qed.
End Runs.
