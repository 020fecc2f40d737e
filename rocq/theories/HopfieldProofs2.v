(** Runs of a trained Hopfield net: the energy and the number of changes *)
From Verif Require Import Py PyFacts ListFacts Network NetworkSpec NetworkProofs NetworkProofs2 Topology TopologySpec TopologyProofs TopologyProofs3 Evolve EvolveSpec EvolveProofs EvolveProofs2 EvolveStatic Async AsyncProofs PropEvolve PropAsync HopfieldSpec Hopfield HopfieldProofs.
Open Scope string_scope.
Open Scope list_scope.
Open Scope Z_scope.

Lemma train_too_long P p0 : nth_error P 0 = Some p0 -> Exists (fun p => (length p0 < length p)%nat) P -> train P = Err IndexError.
Proof.
  intros E0 Hex. destruct P as [|q P]; [discriminate|]. injection E0 as ->. set (m := Z.of_nat (length p0)).
  assert (Hg : forall P M F, mrep m M F -> (forall i, 0 <= i < m -> F i i = 0) -> Exists (fun p => (length p0 < length p)%nat) P -> rfold learn P M = Err IndexError).
  { clear. induction P as [|p P IH]; intros M F Hm Hd Hex; [inversion Hex|]. cbn [rfold]. destruct (Nat.le_gt_cases (length p) (length p0)) as [Hle|Hgt].
    - destruct (learn_ok m p M F ltac:(unfold m; lia) Hm Hd) as (M1 & -> & Hm1). cbn [rbind]. eapply IH; [exact Hm1|intros i _; cbn beta; rewrite Z.eqb_refl; reflexivity|]. inversion Hex; subst; [lia|assumption].
    - destruct (Nat.eq_dec (length p0) 0) as [Ez|Hnz].
      + destruct Hm as [[Hl _] _]. destruct M; [|cbn in Hl; unfold m in Hl; lia]. unfold learn. rewrite (zrange_cons 0 (Z.of_nat (length p))) by lia. reflexivity.
      + rewrite (learn_too_long m p M F ltac:(unfold m; lia) ltac:(unfold m; lia) Hm). reflexivity. }
  unfold train. change (py_nth (p0 :: P) 0) with (Some p0). cbn [of_opt rbind]. fold m. rewrite (Hg _ _ (fun _ _ => 0) (mrep_zero m ltac:(unfold m; lia)) ltac:(reflexivity) Hex). reflexivity.
Qed.

Section Net.
  Variables (m : Z) (w : Z -> Z -> Z) (M : list (list Z)) (net : network Z Z).
  Hypothesis HM : mrep m M w.
  Hypothesis HR : R net (graph_of (adj_edges nzb M)).
  Hypothesis Hrot : net_rot net = None.

  Lemma nonzero_at_w i j : nonzero_at nzb M i j = if (0 <=? i) && (i <? m) && ((0 <=? j) && (j <? m)) then (if nzb (w i j) then Some (w i j) else None) else None.
  Proof.
    destruct HM as [[Hl Hr] He]. unfold nonzero_at. destruct (Z.leb_spec 0 i), (Z.leb_spec 0 j); cbn [andb]; rewrite ?andb_false_r; try reflexivity.
    destruct (Z.ltb_spec i m), (Z.ltb_spec j m); cbn [andb].
    - rewrite He by lia. reflexivity.
    - unfold at_. destruct (nth_error M (Z.to_nat i)) as [row|] eqn:Er; [|reflexivity]. replace (nth_error row (Z.to_nat j)) with (@None Z); [reflexivity|]. symmetry. apply nth_error_None. specialize (Hr row (nth_error_In _ _ Er)). lia.
    - unfold at_. replace (nth_error M (Z.to_nat i)) with (@None (list Z)); [reflexivity|]. symmetry. apply nth_error_None. lia.
    - unfold at_. replace (nth_error M (Z.to_nat i)) with (@None (list Z)); [reflexivity|]. symmetry. apply nth_error_None. lia.
  Qed.

  Lemma net_node v : In v (nodes net) <-> 0 <= v < m /\ exists j, 0 <= j < m /\ (w v j <> 0 \/ w j v <> 0).
  Proof.
    rewrite (nodes_R _ _ HR). fold (is_node (graph_of (adj_edges nzb M)) v). rewrite node_adj.
    assert (Hz : forall i j, nonzero_at nzb M i j <> None <-> (0 <= i < m /\ 0 <= j < m) /\ w i j <> 0).
    { intros i j. rewrite nonzero_at_w. destruct (Z.leb_spec 0 i), (Z.ltb_spec i m), (Z.leb_spec 0 j), (Z.ltb_spec j m); cbn [andb]; try (split; [congruence|lia]).
      unfold nzb. destruct (Z.eqb_spec (w i j) 0); cbn; split; try congruence; [intros []; contradiction|auto]. }
    setoid_rewrite Hz. split.
    - intros (j & [[[Hi Hj] Hw]|[[Hi Hj] Hw]]); (split; [assumption|]); exists j; auto.
    - intros (Hv & j & Hj & [Hw|Hw]); exists j; auto.
  Qed.

  Lemma net_nodup : NoDup (nodes net).
  Proof. rewrite (nodes_R _ _ HR). destruct HR as [_ Hok]. apply Hok. Qed.

  Lemma net_in_edges c : In c (nodes net) -> in_edges net c = Ok (map (fun i => (i, [[("weight", w i c)]])) (filter (fun i => nzb (w i c)) (zrange 0 m))).
  Proof.
    intros Hc. assert (Hcm := proj1 (proj1 (net_node c) Hc)). rewrite (in_edges_R _ _ _ HR). rewrite (nodes_R _ _ HR) in Hc. apply (is_nodeb_true (graph_of (adj_edges nzb M))) in Hc. rewrite Hc. f_equal.
    rewrite (in_neighbours_adj nzb M m c (proj1 HM)).
    assert (Ef : filter (fun i => if nonzero_at nzb M i c then true else false) (zrange 0 m) = filter (fun i => nzb (w i c)) (zrange 0 m)).
    { apply filter_ext_in. intros i Hi. apply in_zrange in Hi. rewrite nonzero_at_w. destruct (Z.leb_spec 0 i), (Z.ltb_spec i m), (Z.leb_spec 0 c), (Z.ltb_spec c m); try lia. cbn [andb]. destruct (nzb (w i c)); reflexivity. }
    rewrite Ef. apply map_ext_in. intros i Hi. apply filter_In in Hi. destruct Hi as [Hi Hz]. apply in_zrange in Hi. f_equal.
    change (betw (adj_edges nzb M) i c = [[("weight", w i c)]]). rewrite betw_adj, nonzero_at_w.
    destruct (Z.leb_spec 0 i), (Z.ltb_spec i m), (Z.leb_spec 0 c), (Z.ltb_spec c m); try lia. cbn [andb]. rewrite Hz. reflexivity.
  Qed.

  (** the rule returns the sign of the field *)
  Lemma rule_field {BA BN I} (W' : env Z Z Z BA BN) (S : dict Z Z) s t past inp c (x : node_ctx Z Z Z I) :
    In c (nodes net) -> ctx_for W' net S t past inp c x -> (forall i, 0 <= i < m -> dget S i = Some (s i)) ->
    hopfield_rule x = Ok (if 0 <=? field m w s c then 1 else -1).
  Proof.
    intros Hc Hx Hs. destruct Hx as [_ _ Ea Hn _ Econn _ _ _]. unfold nbrs_of in Hn. rewrite Hrot in Hn. destruct Hn as (inc & Einc & En). rewrite (net_in_edges c Hc) in Econn, Einc.
    injection Econn as Econn. injection Einc as Einc. subst inc. rewrite map_map in En. cbn [fst] in En. rewrite map_id in En.
    unfold hopfield_rule. rewrite <- Econn, Ea, En.
    set (l := filter (fun i => nzb (w i c)) (zrange 0 m)).
    assert (Hg : forall l' V0, incl l' l -> rfold (fun V nl => states <- of_opt KeyError (dget (map (fun i => (i, [[("weight", w i c)]])) l) nl) ;; s0 <- of_opt IndexError (py_nth states 0) ;; weight <- of_opt KeyError (dget s0 "weight") ;; a <- of_opt KeyError (dget S nl) ;; Ok (V + weight * a)) l' V0 = Ok (V0 + zsum (map (fun j => w j c * s j) l'))).
    { induction l' as [|j l' IH]; intros V0 Hi; [cbn; f_equal; lia|]. cbn [rfold]. assert (Hj : In j l) by (apply Hi; left; reflexivity). rewrite (NetworkProofs.dget_mapkey (fun i => [[("weight", w i c)]]) l j). destruct (in_dec eqd j l); [|contradiction].
      cbn [of_opt rbind]. change (py_nth [[("weight", w j c)]] 0) with (Some [("weight", w j c)]). cbn [of_opt rbind]. change (dget [("weight", w j c)] "weight") with (Some (w j c)). cbn [of_opt rbind].
      unfold l in Hj. apply filter_In in Hj. destruct Hj as [Hj _]. apply in_zrange in Hj. rewrite (Hs j) by lia. cbn [of_opt rbind].
      rewrite IH by (intros y Hy; apply Hi; right; assumption). cbn [map]. rewrite zsum_cons. f_equal. lia. }
    rewrite (Hg l 0 (incl_refl l)). cbn [rbind]. unfold field, sum_upto, l. rewrite zsum_filter; [reflexivity|].
    intros j _ Hz. unfold nzb in Hz. destruct (Z.eqb_spec (w j c) 0) as [->|]; [reflexivity|discriminate].
  Qed.
End Net.

(** ** the state as a vector *)
Definition vec (m : Z) (S : dict Z Z) : list Z := map (fun i => match dget S i with Some a => a | None => 0 end) (zrange 0 m).

Lemma at0_map m (f : Z -> Z) i : 0 <= i < m -> at0 (map f (zrange 0 m)) i = f i.
Proof.
  intros Hi. unfold at0. rewrite (nth_indep _ 0 (f 0)) by (rewrite map_length, length_zrange; lia). rewrite map_nth. f_equal.
  apply nth_error_nth. rewrite nth_error_zrange by lia. f_equal. lia.
Qed.

Definition holds_bipolar (m : Z) (S : dict Z Z) : Prop := forall i, 0 <= i < m -> dget S i = Some 1 \/ dget S i = Some (-1).

Lemma vec_at m S i : holds_bipolar m S -> 0 <= i < m -> dget S i = Some (at0 (vec m S) i).
Proof. intros Hb Hi. unfold vec. rewrite at0_map by assumption. destruct (Hb i Hi) as [-> | ->]; reflexivity. Qed.

Lemma vec_bipolar m S : holds_bipolar m S -> bipolar (vec m S).
Proof. intros Hb. unfold bipolar, vec. apply Forall_forall. intros x Hx. apply in_map_iff in Hx. destruct Hx as (i & <- & Hi). apply in_zrange in Hi. destruct (Hb i ltac:(lia)) as [-> | ->]; auto. Qed.

Section Descent.
  Variables (m : Z) (w : Z -> Z -> Z).
  Hypothesis Hsym : forall i j, w i j = w j i.
  Hypothesis Hdiag : forall i, w i i = 0.
  Notation E v := (energy2 m w v).
  Definition total (v : list Z) : Z := sum_upto m (at0 v).
  Definition pot (v : list Z) : Z := E v - total v.

  (** one update of node [c] to the sign of its field *)
  Definition updates (v v' : list Z) : Prop := exists c, 0 <= c < m /\ (forall i, 0 <= i < m -> i <> c -> at0 v' i = at0 v i) /\ at0 v' c = (if 0 <=? field m w (at0 v) c then 1 else -1).

  Lemma vec_ext v v' : Z.of_nat (length v) = m -> length v = length v' -> (forall i, 0 <= i < m -> at0 v' i = at0 v i) -> v = v'.
  Proof.
    intros Hl Hl' He. apply (nth_ext _ _ 0 0); [assumption|]. intros k Hk. specialize (He (Z.of_nat k) ltac:(lia)). unfold at0 in He. rewrite Nat2Z.id in He. congruence.
  Qed.

  Lemma update_descent v v' : Z.of_nat (length v) = m -> length v = length v' -> bipolar v -> updates v v' ->
    E v' <= E v /\ (v <> v' -> pot v' + 2 <= pot v).
  Proof.
    intros Hl Hl' Hb (c & Hc & Hw & Ec). set (d := at0 v' c - at0 v c).
    assert (Hs : forall i, 0 <= i < m -> at0 v' i = at0 v i + (if i =? c then d else 0)) by (intros i Hi; destruct (Z.eqb_spec i c) as [->|]; [unfold d; lia|rewrite Hw by assumption; lia]).
    assert (Eq : E v' = E v - 2 * d * field m w (at0 v) c).
    { unfold energy2. fold (quad m w (at0 v)). fold (quad m w (at0 v')). rewrite (quad_change m w Hsym Hdiag (at0 v) (at0 v') c d Hc Hs). lia. }
    assert (Et : total v' = total v + d).
    { unfold total. rewrite (sum_ext m _ (fun i => at0 v i + (if i =? c then d else 0)) Hs), sum_plus, (sum_delta m (fun _ => d) c Hc). reflexivity. }
    assert (Hcv : at0 v c = 1 \/ at0 v c = -1).
    { unfold bipolar in Hb. rewrite Forall_forall in Hb. apply Hb. unfold at0. apply nth_In. lia. }
    assert (Hd : v <> v' -> d <> 0).
    { intros Hne Hz. apply Hne. apply vec_ext; [assumption|assumption|]. intros i Hi. rewrite (Hs i Hi), Hz. destruct (i =? c); lia. }
    unfold pot. rewrite Eq, Et. unfold d in *. rewrite Ec in *. set (f := field m w (at0 v) c) in *. clearbody f. clear Eq Et Hs. destruct (Z.leb_spec 0 f); destruct Hcv as [Hcv|Hcv]; rewrite Hcv in *; (split; [lia|]); intros Hne; specialize (Hd Hne); lia.
  Qed.

  Lemma abs_sum f g n : (forall i, 0 <= i < n -> Z.abs (f i) <= g i) -> Z.abs (sum_upto n f) <= sum_upto n g.
  Proof.
    intros Hfg. unfold sum_upto. assert (Hl : forall i, In i (zrange 0 n) -> Z.abs (f i) <= g i) by (intros i Hi; apply in_zrange in Hi; apply Hfg; lia). induction (zrange 0 n) as [|i l IH]; [cbn; lia|].
    cbn [map]. rewrite !zsum_cons. specialize (Hl i (or_introl eq_refl)) as Hi. specialize (IH (fun j Hj => Hl j (or_intror Hj))). lia.
  Qed.

  Notation weight_sum := (total_weight m w).

  Lemma bip_at0 v i : bipolar v -> Z.abs (at0 v i) <= 1.
  Proof.
    intros Hb. unfold at0. destruct (Nat.lt_ge_cases (Z.to_nat i) (length v)) as [Hi|Hi].
    - unfold bipolar in Hb. rewrite Forall_forall in Hb. destruct (Hb _ (nth_In v 0 Hi)) as [-> | ->]; cbn; lia.
    - rewrite nth_overflow by assumption. cbn. lia.
  Qed.

  Lemma sum_const n : 0 <= n -> sum_upto n (fun _ => 1) = n.
  Proof. intros Hn. unfold sum_upto. assert (Hc : forall l : list Z, zsum (map (fun _ => 1) l) = Z.of_nat (length l)) by (induction l; [reflexivity|cbn [map]; rewrite zsum_cons; cbn [length]; lia]). rewrite Hc, length_zrange. lia. Qed.

  Lemma abs_le3 x a b : Z.abs a <= 1 -> Z.abs b <= 1 -> Z.abs x * Z.abs a * Z.abs b <= Z.abs x.
  Proof.
    intros Ha Hb. pose proof (Z.abs_nonneg x). assert (Ha' : Z.abs a = 0 \/ Z.abs a = 1) by lia. assert (Hb' : Z.abs b = 0 \/ Z.abs b = 1) by lia.
    destruct Ha' as [-> | ->], Hb' as [-> | ->]; lia.
  Qed.

  Lemma pot_bound v : 0 <= m -> bipolar v -> Z.abs (pot v) <= weight_sum + m.
  Proof.
    intros Hm Hb. unfold pot. assert (H1 : Z.abs (E v) <= weight_sum).
    { unfold energy2. rewrite Z.abs_opp. apply abs_sum. intros i Hi. apply abs_sum. intros j Hj. rewrite !Z.abs_mul. apply abs_le3; apply bip_at0; assumption. }
    assert (H2 : Z.abs (total v) <= m).
    { unfold total. etransitivity; [apply (abs_sum _ (fun _ => 1)); intros i _; apply bip_at0; assumption|]. rewrite sum_const by assumption. lia. }
    lia.
  Qed.

  Lemma changes_bound : forall vs, Forall (fun v => Z.of_nat (length v) = m /\ bipolar v) vs -> (forall k v v', nth_error vs k = Some v -> nth_error vs (S k) = Some v' -> updates v v') ->
    0 <= m -> changes vs <= weight_sum + m.
  Proof.
    intros vs Hv Hu Hm.
    assert (Hg : forall vs v, Forall (fun v => Z.of_nat (length v) = m /\ bipolar v) (v :: vs) -> (forall k a b, nth_error (v :: vs) k = Some a -> nth_error (v :: vs) (S k) = Some b -> updates a b) -> 2 * changes (v :: vs) <= pot v + (weight_sum + m)).
    { clear - Hm Hsym Hdiag. induction vs as [|v' vs IH]; intros v Hv Hu.
      - cbn [changes]. inversion Hv as [|x l [Hl Hb] Hv']. subst x l. pose proof (pot_bound v Hm Hb). lia.
      - inversion Hv as [|x l [Hl Hb] Hv']. subst x l. specialize (IH v' Hv' (fun k => Hu (S k))). inversion Hv' as [|x l [Hl' Hb'] Hv'']. subst x l.
        destruct (update_descent v v' Hl ltac:(lia) Hb (Hu O v v' eq_refl eq_refl)) as [H1 H2]. 
        change (changes (v :: v' :: vs)) with ((if list_eq_dec Z.eq_dec v v' then 0 else 1) + changes (v' :: vs)). destruct (list_eq_dec Z.eq_dec v v') as [->|Hne]; [lia|]. specialize (H2 Hne). lia. }
    destruct vs as [|v vs]; [cbn; unfold total_weight|].
    - enough (0 <= sum_upto m (fun i => sum_upto m (fun j => Z.abs (w i j)))) by lia.
      etransitivity; [|apply (abs_sum (fun _ => 0))]; [lia|]. intros i _. etransitivity; [|apply (abs_sum (fun _ => 0))]; [lia|]. intros j _. lia.
    - specialize (Hg vs v Hv Hu). inversion Hv as [|x l [Hl Hb] _]. subst x l. pose proof (pot_bound v Hm Hb). lia.
  Qed.
End Descent.

(** ** runs *)
Definition hopfield_setup {I} shuffle (inp : option (@input Z Z Z (unit * async Z) I)) (g : @args Z Z Z (unit * async Z) I) : Prop :=
  g_rule g = Some (hopfield_activity_rule shuffle) /\ g_topo g = None /\ g_pert g = None /\ g_memo g = false /\ g_comp g = false /\ g_pact g = true /\ input_keeps inp.

(** the state [s] shows the activities [v] at the nodes 0 .. m-1 *)
Definition shows {BA BN} (W : env Z Z Z BA BN) (m : Z) (s : state Z Z Z BA BN) (v : list Z) : Prop :=
  exists S, activities W s = Ok (Some S) /\ Z.of_nat (length v) = m /\ forall i, 0 <= i < m -> dget S i = Some (at0 v i).

Lemma stateless_keeps {L V A U I} `{EqD L} (h : node_ctx L V A I -> res A) : keeps_nodes (U := U) (stateless h).
Proof. intros u x u' o E. unfold stateless in E. inv_bind E a Ea. injection E as _ <-. auto. Qed.

Lemma map_of_nat_seq n : map Z.of_nat (seq 0 n) = zrange 0 (Z.of_nat n).
Proof. unfold zrange. replace (Z.to_nat (Z.of_nat n - 0)) with n by lia. apply map_ext. intros. lia. Qed.

Lemma dget_listed (f : nat -> Z) (v : list Z) : (forall i, f i = Z.of_nat i) -> forall i, 0 <= i < Z.of_nat (length v) -> dget (map (fun iv => (f (fst iv), snd iv)) (enumerate v)) i = Some (at0 v i).
Proof.
  intros Hf i Hi.
  assert (Hg : forall v k, forall i, Z.of_nat k <= i < Z.of_nat k + Z.of_nat (length v) -> dget (map (fun iv => (f (fst iv), snd iv)) (combine (seq k (length v)) v)) i = Some (nth (Z.to_nat i - k) v 0)).
  { clear i Hi v. induction v as [|x v IH]; intros k i Hi; [cbn in Hi; lia|]. cbn [length seq combine map fst snd dget]. rewrite Hf. destruct (eqd i (Z.of_nat k)) as [->|Hne].
    - rewrite Nat2Z.id, Nat.sub_diag. reflexivity.
    - cbn [length] in Hi. rewrite IH by lia. replace (Z.to_nat i - k)%nat with (S (Z.to_nat i - S k)) by lia. reflexivity. }
  unfold enumerate. rewrite (Hg v O i) by lia. rewrite Nat.sub_0_r. reflexivity.
Qed.

Theorem hopfield_run {BA BN I} (W : env Z Z Z BA BN) m w M net shuffle fuel (inp : option (@input Z Z Z (unit * async Z) I)) g ts v0 uf traj a :
  mrep m M w -> R net (graph_of (adj_edges nzb M)) -> net_rot net = None -> (forall i j, w i j = w j i) -> (forall i, w i i = 0) ->
  0 < m -> (forall i, 0 <= i < m -> exists j, 0 <= j < m /\ w i j <> 0) ->
  hopfield_setup shuffle inp g -> (forall i, e_lab W i = Z.of_nat i) -> (forall d k, Permutation (shuffle d k) (zrange 0 (Z.of_nat k))) ->
  hopfield_init shuffle (Z.to_nat m) = Ok a -> bipolar v0 -> Z.of_nat (length v0) = m ->
  evolve W fuel (tt, a) net (Some (CList v0)) ts inp g = Ok (uf, traj) ->
  exists vs, nth_error vs 0 = Some v0 /\ Forall2 (shows W m) traj vs /\ Forall (fun v => Z.of_nat (length v) = m /\ bipolar v) vs /\
    forall k v v', nth_error vs k = Some v -> nth_error vs (S k) = Some v' -> updates m w v v'.
Proof.
  intros HM HR Hrot Hsym Hdiag Hm Hconn (G1 & G2 & G3 & G4 & G5 & G6 & G7) Hlab Hsh Ei Hb0 Hl0 E.
  assert (Hnd := net_nodup M net HR).
  assert (Hnode : forall v, In v (nodes net) <-> 0 <= v < m).
  { intros v. rewrite (net_node m w M net HM HR v). split; [tauto|]. intros Hv. split; [assumption|]. destruct (Hconn v Hv) as (j & Hj & Hw). eauto. }
  assert (Hperm : Permutation (nodes net) (zrange 0 m)).
  { apply NoDup_Permutation; [assumption|apply NoDup_zrange|]. intros v. rewrite Hnode, in_zrange. lia. }
  assert (El : net_len net = Z.to_nat m).
  { assert (Hx : length (nodes net) = net_len net) by (unfold nodes, dkeys, net_len; apply map_length). rewrite <- Hx, (Permutation_length Hperm), length_zrange. f_equal. lia. }
  assert (Emap : forall k, map (e_lab W) (seq 0 k) = zrange 0 (Z.of_nat k)) by (intros k; rewrite <- map_of_nat_seq; apply map_ext; assumption).
  destruct (C36_randomized_one_node_per_step W shuffle (stateless hopfield_rule) fuel tt net (Some (CList v0)) ts inp g uf traj a) as (hs & Hz & Hf & Hs).
  - unfold async_setup. repeat (split; [assumption|]). split; [apply stateless_keeps|]. split; assumption.
  - intros Hx. assert (Hin : In 0 (nodes net)) by (apply Hnode; lia). rewrite Hx in Hin. destruct Hin.
  - intros d k. rewrite Emap. apply Hsh.
  - rewrite Emap, El. rewrite Z2Nat.id by lia. assumption.
  - rewrite El. exact Ei.
  - exact E.
  - assert (Hinit : forall i, 0 <= i < m -> dget (start W (Some (CList v0))) i = Some (at0 v0 i)).
    { intros i Hi. cbn [start to_dict]. apply (dget_listed (e_lab W)); [assumption|lia]. }
    assert (Hstep : forall k u S u' S', nth_error hs k = Some (u, S) -> nth_error hs (Datatypes.S k) = Some (u', S') -> holds_bipolar m S ->
      exists c, 0 <= c < m /\ (forall i, 0 <= i < m -> i <> c -> dget S' i = dget S i) /\ dget S' c = Some (if 0 <=? field m w (at0 (vec m S)) c then 1 else -1)).
    { intros k u S u' S' Ek Ek' Hb. destruct (Hs k u S u' S' Ek Ek') as (c & Hc & Hk & Hw & past & i & x & o & Hx & Er & Eo). exists c. split; [apply Hnode; assumption|]. split; [intros j Hj; apply Hw, Hnode; assumption|].
      rewrite Eo. unfold stateless in Er. rewrite (rule_field m w M net HM HR Hrot W S (at0 (vec m S)) _ _ _ c x Hc Hx ltac:(intros; apply vec_at; assumption)) in Er. cbn [rbind] in Er. injection Er as _ <-. reflexivity. }
    assert (Hall : forall k u S, nth_error hs k = Some (u, S) -> holds_bipolar m S).
    { induction k as [|k IH]; intros u S Ek.
      - rewrite Hz in Ek. assert (ES : start W (Some (CList v0)) = S) by congruence. subst S. intros i Hi. rewrite (Hinit i Hi). unfold bipolar in Hb0. rewrite Forall_forall in Hb0. destruct (Hb0 (at0 v0 i)) as [-> | ->]; auto. apply nth_In. lia.
      - destruct (nth_error hs k) as [[u1 S1]|] eqn:E1; [|apply nth_error_None in E1; assert (Hlt : (Datatypes.S k < length hs)%nat) by (apply nth_error_Some; congruence); lia].
        specialize (IH u1 S1 eq_refl). destruct (Hstep k u1 S1 u S E1 Ek IH) as (c & Hc & Hw & Ec). intros i Hi. destruct (Z.eq_dec i c) as [->|Hne]; [rewrite Ec; destruct (0 <=? _); auto|rewrite Hw by assumption; apply IH; assumption]. }
    exists (map (fun h => vec m (snd h)) hs). split; [|split; [|split]].
    + rewrite nth_error_map, Hz. cbn [option_map snd]. f_equal. symmetry. apply (vec_ext m); [assumption|unfold vec; rewrite map_length, length_zrange; lia|]. intros i Hi. unfold vec. rewrite at0_map by assumption. rewrite (Hinit i Hi). reflexivity.
    + assert (Hin : forall h, In h hs -> holds_bipolar m (snd h)) by (intros [u S] Hh; apply In_nth_error in Hh; destruct Hh as [k Ek]; eapply Hall; exact Ek).
      clear - Hf Hin Hm. induction Hf as [|s h traj hs Hsh Hf IH]; [constructor|]. cbn [map]. constructor; [|apply IH; intros h' Hh'; apply Hin; right; assumption].
      specialize (Hin h (or_introl eq_refl)). exists (snd h). split; [|split].
      * rewrite Hsh. f_equal. destruct (snd h) eqn:Eh; [|reflexivity]. destruct (Hin 0 ltac:(lia)) as [Hx|Hx]; discriminate Hx.
      * unfold vec. rewrite map_length, length_zrange. lia.
      * intros i Hi. apply vec_at; assumption.
    + apply Forall_forall. intros v Hv. apply in_map_iff in Hv. destruct Hv as ([u S] & <- & Hh). apply In_nth_error in Hh. destruct Hh as [k Ek]. split; [unfold vec; rewrite map_length, length_zrange; lia|]. apply vec_bipolar. eapply Hall. exact Ek.
    + intros k v v' Ev Ev'. rewrite nth_error_map in Ev, Ev'. destruct (nth_error hs k) as [[u S]|] eqn:Ek; [|discriminate]. destruct (nth_error hs (Datatypes.S k)) as [[u' S']|] eqn:Ek'; [|discriminate]. injection Ev as <-. injection Ev' as <-. cbn [snd].
      destruct (Hstep k u S u' S' Ek Ek' (Hall k u S Ek)) as (c & Hc & Hw & Ec). exists c. split; [assumption|]. split.
      * intros i Hi Hne. unfold vec. rewrite !at0_map by assumption. rewrite Hw by assumption. reflexivity.
      * unfold vec at 1. rewrite at0_map by assumption. rewrite Ec. reflexivity.
Qed.
