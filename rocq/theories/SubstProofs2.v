(** * Runs of substitution systems *)
From Coq Require Import Ascii.
From Verif Require Import Py PyFacts ListFacts Network NetworkSpec NetworkProofs NetworkProofs2.
From Verif Require Import Evolve EvolveSpec EvolveProofs EvolveProofs2 EvolveProofs3 EvolveStatic Utils UtilsProofs SubstSpec Subst SubstProofs.
Open Scope string_scope.
Open Scope list_scope.
Open Scope Z_scope.

Lemma last_cons {X} (x d : X) l : last (x :: l) d = last l x.
Proof. revert x d. induction l as [|y l IH]; intros x d; [reflexivity|]. change (last (x :: y :: l) d) with (last (y :: l) d). rewrite (IH y d), (IH y x). reflexivity. Qed.
Lemma rmap_app {X Y} (f : X -> res Y) l l' : rmap f (l ++ l') = (a <- rmap f l ;; b <- rmap f l' ;; Ok (a ++ b)).
Proof.
  induction l as [|x l IH]; cbn; [destruct (rmap f l'); reflexivity|]. destruct (f x); [cbn|reflexivity]. rewrite IH. destruct (rmap f l); [cbn|reflexivity]. destruct (rmap f l'); reflexivity.
Qed.
Lemma rmap_len {X Y} (f : X -> res Y) l l' : rmap f l = Ok l' -> length l' = length l.
Proof. revert l'. induction l as [|x l IH]; intros l' E; cbn in E; [injection E as <-; reflexivity|]. inv_bind E y Ey. inv_bind E r Er. injection E as <-. cbn. f_equal. apply IH. assumption. Qed.
Lemma rmap_nth {X Y} (f : X -> res Y) l l' i x : rmap f l = Ok l' -> nth_error l i = Some x -> exists y, nth_error l' i = Some y /\ f x = Ok y.
Proof.
  revert l' i. induction l as [|z l IH]; intros l' i E Ei; [destruct i; discriminate|]. cbn in E. inv_bind E y Ey. inv_bind E r Er. injection E as <-.
  destruct i as [|i]; [injection Ei as <-; exists y; auto|]. apply (IH r i Er Ei).
Qed.

Lemma rmap_total {X Y} (f : X -> res Y) l : (forall x, In x l -> exists y, f x = Ok y) -> exists l', rmap f l = Ok l'.
Proof.
  induction l as [|x l IH]; intros Hf; [exists []; reflexivity|]. destruct (Hf x (or_introl eq_refl)) as [y Ey]. destruct IH as [r Er]; [intros z Hz; apply Hf; right; assumption|].
  exists (y :: r). cbn. rewrite Ey. cbn. rewrite Er. reflexivity.
Qed.

(** dicts over consecutive labels *)
Lemma row_keys {X} lo (l : list X) : dkeys (combine (zrange lo (lo + Z.of_nat (length l))) l) = zrange lo (lo + Z.of_nat (length l)).
Proof.
  unfold dkeys. revert lo. induction l as [|x l IH]; intros lo; cbn [length]; [rewrite zrange_nil by lia; reflexivity|]. rewrite (zrange_cons lo) by lia. cbn [combine map fst]. f_equal.
  replace (lo + Z.of_nat (Datatypes.S (length l))) with (lo + 1 + Z.of_nat (length l)) by lia. apply IH.
Qed.
Lemma row_get {X} lo (l : list X) i x : nth_error l i = Some x -> dget (combine (zrange lo (lo + Z.of_nat (length l))) l) (lo + Z.of_nat i) = Some x.
Proof.
  revert lo i. induction l as [|y l IH]; intros lo i E; [destruct i; discriminate|]. cbn [length]. rewrite (zrange_cons lo) by lia. cbn [combine dget].
  replace (lo + Z.of_nat (Datatypes.S (length l))) with (lo + 1 + Z.of_nat (length l)) by lia. destruct i as [|i].
  - injection E as <-. rewrite Z.add_0_r. destruct (eqd lo lo); [reflexivity|congruence].
  - destruct (eqd (lo + Z.of_nat (Datatypes.S i)) lo); [lia|]. replace (lo + Z.of_nat (Datatypes.S i)) with (lo + 1 + Z.of_nat i) by lia. apply IH. assumption.
Qed.
Lemma row_snoc {X} lo (l : list X) x : dset (combine (zrange lo (lo + Z.of_nat (length l))) l) (lo + Z.of_nat (length l)) x = combine (zrange lo (lo + Z.of_nat (length (l ++ [x])))) (l ++ [x]).
Proof.
  rewrite dset_new by (rewrite row_keys, in_zrange; lia). rewrite app_length. cbn [length]. rewrite (zrange_snoc lo (lo + Z.of_nat (length l + 1))) by lia.
  replace (lo + Z.of_nat (length l + 1) - 1) with (lo + Z.of_nat (length l)) by lia. rewrite combine_app; [reflexivity|]. rewrite length_zrange. lia.
Qed.

Lemma append_string a l : (string_of_list_ascii a ++ string_of_list_ascii l)%string = string_of_list_ascii (a ++ l).
Proof. induction a as [|c a IH]; [reflexivity|]. cbn. rewrite IH. reflexivity. Qed.
Lemma firstn_skipn_cons {X} k i (l : list X) x : nth_error l i = Some x -> firstn (Datatypes.S k) (skipn i l) = x :: firstn k (skipn (Datatypes.S i) l).
Proof. revert l. induction i as [|i IH]; intros [|y l] E; try discriminate; [injection E as <-; reflexivity|]. cbn [skipn]. apply (IH l E). Qed.

Section Run.
  Context {A V I BA BN : Type} `{EqD A} (str : A -> string) (conv : ascii -> res A).
  Context (W : env Z V A BA BN).
  Notation network := (network Z V).
  Notation acts := (dict Z A).
  Notation ctx := (node_ctx Z V A I).
  Notation args := (@args Z V A subst I).
  Notation memokey := (@memokey Z V A I).
  Notation tick := (InStr "__timestep__").
  Notation raw_of S := (match S with [] => None | _ => Some (Raw S) end).
  Context (rules : dict string string) (k : Z).
  Hypothesis (Hk : 1 <= k).
  Hypothesis (Hconv : forall c a, conv c = Ok a -> str a = String c "").

  Definition row (lo : Z) (l : list A) : acts := combine (zrange lo (lo + Z.of_nat (length l))) l.

  (** what the sweep computes from the windows *)
  Fixpoint outs (ws : list (list ascii)) : res (list A) :=
    match ws with
    | [] => Ok []
    | w :: ws => x <- of_opt KeyError (image rules w) ;; a <- rmap conv x ;; b <- outs ws ;; Ok (a ++ b)
    end.

  Lemma add_chars cs : forall s added, rfold (add_char conv k) cs (s, added) =
    (l <- rmap conv cs ;; Ok (mkSS (ss_last s + Z.of_nat (length l)) (ss_added s + Z.of_nat (length l)) (ss_time s), added ++ items (V := V) k (ss_last s) (ss_added s) l)).
  Proof.
    induction cs as [|c cs IH]; intros s added.
    - cbn. rewrite !Z.add_0_r, app_nil_r. destruct s. reflexivity.
    - cbn [rfold rmap]. unfold add_char at 1. destruct (conv c) as [a|e]; [|reflexivity]. cbn [rbind]. rewrite IH. cbn [ss_last ss_added ss_time].
      destruct (rmap conv cs) as [l|e]; [|reflexivity]. cbn [rbind length items]. rewrite <- app_assoc. do 3 f_equal; lia.
  Qed.

  Lemma get_state_row s l lo i (x : ctx) : rmap conv s = Ok l -> x_acts x = row lo l -> (i + Z.to_nat k <= length s)%nat ->
    x_nbrs x = zrange (lo + Z.of_nat i) (lo + Z.of_nat i + k) -> get_state str x = Ok (string_of_list_ascii (firstn (Z.to_nat k) (skipn i s))).
  Proof.
    intros Es Ea Hi En. unfold get_state. rewrite Ea, En.
    assert (Hg : forall m i acc, (i + m <= length s)%nat ->
      rfold (fun state w => a <- of_opt KeyError (dget (row lo l) w) ;; Ok (state ++ str a)%string) (zrange (lo + Z.of_nat i) (lo + Z.of_nat i + Z.of_nat m)) (string_of_list_ascii acc) =
      Ok (string_of_list_ascii (acc ++ firstn m (skipn i s)))).
    { induction m as [|m IH]; intros j acc Hj; [rewrite zrange_nil by lia; cbn; rewrite app_nil_r; reflexivity|].
      rewrite (zrange_cons (lo + Z.of_nat j)) by lia. cbn [rfold]. destruct (nth_error s j) as [c|] eqn:Ec; [|apply nth_error_None in Ec; lia].
      destruct (rmap_nth conv s l j c Es Ec) as (a & Ea' & Eca). unfold row at 1. rewrite (row_get lo l j a Ea'). cbn [of_opt rbind]. rewrite (Hconv c a Eca).
      change (String c "") with (string_of_list_ascii [c]). rewrite append_string. replace (lo + Z.of_nat j + 1) with (lo + Z.of_nat (Datatypes.S j)) by lia.
      replace (lo + Z.of_nat j + Z.of_nat (Datatypes.S m)) with (lo + Z.of_nat (Datatypes.S j) + Z.of_nat m) by lia. rewrite IH by lia. rewrite (firstn_skipn_cons m j s c Ec), <- app_assoc. reflexivity. }
    replace (lo + Z.of_nat i + k) with (lo + Z.of_nat i + Z.of_nat (Z.to_nat k)) by lia. apply (Hg (Z.to_nat k) i []). assumption.
  Qed.

  Definition added_to (u : subst) (t : Z) : Z := if ss_time u =? t then ss_added u else 0.

  Lemma sweep (g : args) (mk : memokey) t net past tab (s : list ascii) l lo (u : subst) :
    g_memo g = false -> g_pert g = None -> rmap conv s = Ok l -> windowed k lo (lo + Z.of_nat (length s)) net -> ss_time u <> t ->
    do_activity_rule W g mk (subst_rule str conv rules k) t tick u (row lo l) tab net past (Some (get_neighbourhood_map net)) =
    (l' <- outs (windows (Z.to_nat k) s) ;;
     Ok (mkNst (match s with [] => u | _ => mkSS (ss_last u + Z.of_nat (length l')) (Z.of_nat (length l')) t end) [] tab (items k (ss_last u) 0 l') (zrange lo (lo + Z.of_nat (length s))))).
  Proof.
    intros Hm Hp Es Hw Ht. unfold do_activity_rule. rewrite (nodes_windowed _ _ _ _ Hw).
    assert (Hls : length l = length s) by (apply rmap_len in Es; assumption).
    set (n := length s) in *.
    assert (Hg : forall m i u1 acc, (i + m = n)%nat -> ss_last u1 = ss_last u + Z.of_nat (length acc) -> added_to u1 t = Z.of_nat (length acc) ->
      (i = 0%nat /\ u1 = u \/ ss_time u1 = t) ->
      rfold (node_step W g mk (subst_rule str conv rules k) t tick (row lo l) net past (Some (get_neighbourhood_map net))) (zrange (lo + Z.of_nat i) (lo + Z.of_nat n))
        (mkNst u1 [] tab (items k (ss_last u) 0 acc) (zrange lo (lo + Z.of_nat i))) =
      (l' <- outs (map (fun i => firstn (Z.to_nat k) (skipn i s)) (seq i (n + 1 - Z.to_nat k - i))) ;;
       Ok (mkNst (match m with O => u1 | _ => mkSS (ss_last u + Z.of_nat (length (acc ++ l'))) (Z.of_nat (length (acc ++ l'))) t end) [] tab (items k (ss_last u) 0 (acc ++ l')) (zrange lo (lo + Z.of_nat n))))).
    { induction m as [|m IH]; intros i u1 acc Hi Hl1 Ha1 Hu1.
      - rewrite (zrange_nil (lo + Z.of_nat i)) by lia. replace (n + 1 - Z.to_nat k - i)%nat with 0%nat by lia. cbn. rewrite app_nil_r. replace (Z.of_nat i) with (Z.of_nat n) by lia. reflexivity.
      - rewrite (zrange_cons (lo + Z.of_nat i)) by lia. cbn [rfold]. set (v := lo + Z.of_nat i) in *.
        destruct (windowed_map k lo (lo + Z.of_nat n) net v Hw ltac:(lia)) as (inc & Einc & Enb).
        assert (Hrow : forall j, (j < n)%nat -> exists b, dget (row lo l) (lo + Z.of_nat j) = Some b).
        { intros j Hj. destruct (nth_error l j) as [b|] eqn:Eb; [|apply nth_error_None in Eb; lia]. exists b. apply row_get. assumption. }
        assert (Ectx : exists cur na, node_context W t tick (row lo l) net past (Some (get_neighbourhood_map net)) v = Ok (mkCtx (I := I) v t (row lo l) (zrange v (Z.min (v + k) (lo + Z.of_nat n))) na inc cur past None)).
        { unfold node_context. rewrite Einc. cbn [rbind get_neighbour_labels]. rewrite Enb. cbn [of_opt rbind]. destruct (Hrow i ltac:(lia)) as [cur Ecur]. fold v in Ecur. rewrite Ecur. cbn [of_opt rbind].
          assert (Er : exists na, rmap (fun w => of_opt KeyError (dget (row lo l) w)) (zrange v (Z.min (v + k) (lo + Z.of_nat n))) = Ok na).
          { apply rmap_total. intros w Hin. apply in_zrange in Hin. destruct (Hrow (Z.to_nat (w - lo)) ltac:(lia)) as [b Eb]. exists b. replace (lo + Z.of_nat (Z.to_nat (w - lo))) with w in Eb by lia. rewrite Eb. reflexivity. }
          destruct Er as [na Ena]. exists cur, na. rewrite Ena. reflexivity. }
        destruct Ectx as (cur & na & Ectx). unfold node_step at 1. rewrite Ectx. cbn [rbind s_u s_tab s_added s_removed s_curr]. unfold apply_rule. rewrite Hm, Hp.
        unfold subst_rule at 1. cbn [x_time x_nbrs x_cur x_label]. fold (added_to u1 t). rewrite Ha1, Hl1. rewrite length_zrange.
        assert (Erem : existsb (eqb v) [v] = true) by (cbn; rewrite eqb_refl; reflexivity).
        destruct (Nat.le_gt_cases (i + Z.to_nat k) n) as [Hle|Hgt].
        + replace (Z.min (v + k) (lo + Z.of_nat n)) with (v + k) by lia. replace (Z.of_nat (Z.to_nat (v + k - v)) =? k) with true by (symmetry; apply Z.eqb_eq; lia). cbn [negb].
          rewrite (get_state_row s l lo i) by (try assumption; reflexivity). cbn [rbind].
          replace (n + 1 - Z.to_nat k - i)%nat with (Datatypes.S (n + 1 - Z.to_nat k - Datatypes.S i)) by lia. cbn [seq map outs]. unfold image at 1.
          destruct (dget rules (string_of_list_ascii (firstn (Z.to_nat k) (skipn i s)))) as [x|]; [|reflexivity]. cbn [option_map of_opt rbind].
          rewrite add_chars. destruct (rmap conv (list_ascii_of_string x)) as [a|e]; [|reflexivity]. cbn [rbind ss_last ss_added ss_time o_added o_removed o_act app]. rewrite Erem.
          set (acc' := acc ++ a). assert (El : Z.of_nat (length acc') = Z.of_nat (length acc) + Z.of_nat (length a)) by (unfold acc'; rewrite app_length; lia).
          replace (items k (ss_last u) 0 acc ++ items k (ss_last u + Z.of_nat (length acc)) (Z.of_nat (length acc)) a) with (items (V := V) k (ss_last u) 0 acc') by (unfold acc'; rewrite items_app; reflexivity).
          replace (zrange lo v ++ [v]) with (zrange lo (lo + Z.of_nat (Datatypes.S i))) by (rewrite (zrange_snoc lo (lo + Z.of_nat (Datatypes.S i))) by lia; f_equal; [f_equal; lia|f_equal; lia]).
          replace (v + 1) with (lo + Z.of_nat (Datatypes.S i)) by lia.
          rewrite (IH (Datatypes.S i) _ acc' ltac:(lia)); [|cbn; lia|unfold added_to; cbn; rewrite Z.eqb_refl; lia|right; reflexivity].
          destruct m as [|m].
          * replace (n + 1 - Z.to_nat k - Datatypes.S i)%nat with 0%nat by lia. cbn [seq map outs rbind]. rewrite !app_nil_r. fold acc'. rewrite El. do 3 f_equal; lia.
          * destruct (outs _) as [b|e]; [|reflexivity]. cbn [rbind]. unfold acc'. rewrite app_assoc. reflexivity.
        + replace (Z.min (v + k) (lo + Z.of_nat n)) with (lo + Z.of_nat n) by lia. replace (Z.of_nat (Z.to_nat (lo + Z.of_nat n - v)) =? k) with false by (symmetry; apply Z.eqb_neq; lia). cbn [negb rbind o_added o_removed o_act].
          rewrite Erem, app_nil_r.
          replace (zrange lo v ++ [v]) with (zrange lo (lo + Z.of_nat (Datatypes.S i))) by (rewrite (zrange_snoc lo (lo + Z.of_nat (Datatypes.S i))) by lia; f_equal; [f_equal; lia|f_equal; lia]).
          replace (v + 1) with (lo + Z.of_nat (Datatypes.S i)) by lia.
          rewrite (IH (Datatypes.S i) _ acc ltac:(lia)); [|cbn; lia|unfold added_to; cbn; rewrite Z.eqb_refl; lia|right; reflexivity].
          replace (n + 1 - Z.to_nat k - i)%nat with 0%nat by lia. replace (n + 1 - Z.to_nat k - Datatypes.S i)%nat with 0%nat by lia. cbn [seq map outs rbind]. rewrite app_nil_r. destruct m; reflexivity. }
    specialize (Hg n 0%nat u [] eq_refl). cbn [length Z.of_nat] in Hg. rewrite !Z.add_0_r in Hg. rewrite (zrange_nil lo lo) in Hg by lia.
    change (items k (ss_last u) 0 []) with (@nil (A * dict Z (dict string V) * Z)) in Hg. rewrite Hg; [|lia|unfold added_to; destruct (Z.eqb_spec (ss_time u) t); [contradiction|reflexivity]|left; auto].
    unfold windows. rewrite Nat.sub_0_r. unfold n. destruct s; reflexivity.
  Qed.

  Lemma items_row last : forall l done, fold_left (fun d anl => dset d (snd anl) (fst (fst anl))) (items (V := V) k (last + Z.of_nat (length done)) (Z.of_nat (length done)) l) (row (last + 1) done) = row (last + 1) (done ++ l).
  Proof.
    induction l as [|a l IH]; intros done; [rewrite app_nil_r; reflexivity|]. cbn [items fold_left fst snd]. specialize (IH (done ++ [a])). rewrite <- app_assoc in IH. cbn [app] in IH. rewrite <- IH.
    replace (last + Z.of_nat (length done) + 1) with (last + 1 + Z.of_nat (length done)) by lia. unfold row at 1. rewrite row_snoc. fold (row (last + 1) (done ++ [a])).
    rewrite app_length. cbn [length]. f_equal; f_equal; lia.
  Qed.

  Definition runs (g : args) : Prop := static g (subst_rule str conv rules k) /\ g_order g = ACTIVITIES_FIRST.

  Lemma subst_step (g : args) (mk : memokey) t u s l lo net tab hist traj l' :
    runs g -> rmap conv s = Ok l -> windowed k lo (lo + Z.of_nat (length s)) net -> ss_time u < t -> ss_last u = lo + Z.of_nat (length s) - 1 ->
    Forall2 (fun st S => st_act st = raw_of S) traj (hist ++ [row lo l]) -> Z.of_nat (length hist) + 1 = t ->
    outs (windows (Z.to_nat k) s) = Ok l' ->
    exists u' net' sn, step W g mk t tick (mkCfg u (row lo l) net tab (Some (get_neighbourhood_map net)) traj) =
      Ok (mkCfg u' (row (lo + Z.of_nat (length s)) l') net' tab (Some (get_neighbourhood_map net')) (traj ++ [mkState (raw_of (row (lo + Z.of_nat (length s)) l')) sn])) /\
      windowed k (lo + Z.of_nat (length s)) (lo + Z.of_nat (length s) + Z.of_nat (length l')) net' /\ ss_time u' <= t /\ ss_last u' = lo + Z.of_nat (length s) + Z.of_nat (length l') - 1.
  Proof.
    intros [(Hr & Ht & Hp & Hm & Hc & Hpa) Ho] Es Hw Htm Hlast Hf Hl Eo. unfold step. cbn [c_traj c_u c_act c_net c_tab c_map].
    rewrite (past_total W g traj (hist ++ [row lo l]) t) by (solve [assumption|destruct hist; discriminate|rewrite app_length; cbn [length]; lia]). cbn [rbind].
    rewrite Ho. unfold evolve_activities. rewrite Hr. rewrite (sweep g mk t net _ tab s l lo u Hm Hp Es Hw) by lia. rewrite Eo. cbn [rbind s_u s_curr s_tab s_added s_removed].
    set (hi := lo + Z.of_nat (length s)) in *. rewrite Hlast.
    assert (Efold : fold_left (fun d anl => dset d (snd anl) (fst (fst anl))) (items (V := V) k (hi - 1) 0 l') [] = row hi l').
    { pose proof (items_row (hi - 1) l' []) as E. cbn [length Z.of_nat app] in E. rewrite Z.add_0_r in E. replace (hi - 1 + 1) with hi in E by lia.
      unfold row at 1 in E. cbn [length Z.of_nat combine] in E. rewrite Z.add_0_r, zrange_nil in E by lia. exact E. }
    rewrite Efold.
    assert (Era : record_activities W g (row hi l') = Ok (raw_of (row hi l'))) by (unfold record_activities; rewrite Hpa, Hc; unfold set_activities; destruct (row hi l'); reflexivity).
    rewrite Era. cbn [rbind]. unfold evolve_topology. rewrite Ht.
    assert (Hsn : forall net', exists sn, record_network W g net' = Ok sn) by (intros net'; unfold record_network; rewrite Hc; unfold set_network; destruct (g_pnet g), (net_nodes net'); eexists; reflexivity).
    destruct s as [|c s].
    - assert (Ew : windows (Z.to_nat k) [] = []) by (unfold windows; cbn [length]; replace (0 + 1 - Z.to_nat k)%nat with 0%nat by lia; reflexivity). rewrite Ew in Eo. injection Eo as <-. cbn [items]. cbn [length Z.of_nat] in hi. replace lo with hi by lia.
      rewrite (zrange_nil hi hi) by lia. cbn [rbind]. destruct (Hsn net) as [sn ->]. cbn [rbind]. exists u, net, sn. split; [reflexivity|]. cbn [length Z.of_nat]. rewrite Z.add_0_r. split; [|lia].
      replace lo with hi in Hw by lia. exact Hw.
    - destruct (rewrite_network W k lo hi net l' Hk Hw) as (net' & Eadj & Hw'). rewrite Eadj.
      destruct (zrange lo hi) as [|z zs] eqn:Ez; [exfalso; assert (In lo (zrange lo hi)) by (apply in_zrange; unfold hi; cbn [length]; lia); rewrite Ez in *; contradiction|].
      replace (match items (V := V) k (hi - 1) 0 l' with [] => Ok net' | _ :: _ => Ok net' end) with (@Ok network net') by (destruct (items k (hi - 1) 0 l'); reflexivity). cbn [rbind].
      destruct (Hsn net') as [sn ->]. cbn [rbind]. eexists _, net', sn. split; [destruct (items k (hi - 1) 0 l'); reflexivity|]. split; [assumption|]. cbn [ss_time ss_last]. lia.
  Qed.

  Lemma subst_step_err (g : args) (mk : memokey) t u s l lo net tab hist traj e :
    runs g -> rmap conv s = Ok l -> windowed k lo (lo + Z.of_nat (length s)) net -> ss_time u < t ->
    Forall2 (fun st S => st_act st = raw_of S) traj (hist ++ [row lo l]) -> Z.of_nat (length hist) + 1 = t ->
    outs (windows (Z.to_nat k) s) = Err e -> step W g mk t tick (mkCfg u (row lo l) net tab (Some (get_neighbourhood_map net)) traj) = Err e.
  Proof.
    intros [(Hr & Ht & Hp & Hm & Hc & Hpa) Ho] Es Hw Htm Hf Hl Eo. unfold step. cbn [c_traj c_u c_act c_net c_tab c_map].
    rewrite (past_total W g traj (hist ++ [row lo l]) t) by (solve [assumption|destruct hist; discriminate|rewrite app_length; cbn [length]; lia]). cbn [rbind].
    rewrite Ho. unfold evolve_activities. rewrite Hr. rewrite (sweep g mk t net _ tab s l lo u Hm Hp Es Hw) by lia. rewrite Eo. reflexivity.
  Qed.

  Lemma outs_images ws s' l' : images rules ws = Some s' -> rmap conv s' = Ok l' -> outs ws = Ok l'.
  Proof.
    revert s' l'. induction ws as [|w ws IH]; intros s' l' Ei El; cbn in *; [injection Ei as <-; cbn in El; congruence|].
    destruct (image rules w) as [x|]; [|discriminate]. destruct (images rules ws) as [y|]; [|discriminate]. injection Ei as <-. rewrite rmap_app in El. inv_bind El a Ea. inv_bind El b Eb. injection El as <-.
    cbn [of_opt rbind]. rewrite Ea. cbn [rbind]. rewrite (IH y b eq_refl Eb). reflexivity.
  Qed.
  Definition convertible (y : list ascii) : Prop := exists l, rmap conv y = Ok l.
  Hypothesis (Hval : forall w y, image rules w = Some y -> convertible y).
  Lemma images_convertible ws s' : images rules ws = Some s' -> convertible s'.
  Proof.
    revert s'. induction ws as [|w ws IH]; intros s' Ei; cbn in *; [injection Ei as <-; exists []; reflexivity|].
    destruct (image rules w) as [x|] eqn:Ew; [|discriminate]. destruct (images rules ws) as [y|]; [|discriminate]. injection Ei as <-. destruct (Hval w x Ew) as [a Ea], (IH y eq_refl) as [b Eb].
    exists (a ++ b). rewrite rmap_app, Ea, Eb. reflexivity.
  Qed.
  Lemma outs_missing ws : images rules ws = None -> outs ws = Err KeyError.
  Proof.
    induction ws as [|w ws IH]; intros Ei; cbn in *; [discriminate|]. destruct (image rules w) as [x|] eqn:Ew; [|reflexivity]. destruct (Hval w x Ew) as [a Ea]. cbn [of_opt rbind]. rewrite Ea. cbn [rbind].
    destruct (images rules ws) as [y|]; [discriminate|]. rewrite IH by reflexivity. reflexivity.
  Qed.

  (** successive strings *)
  Inductive chain : list ascii -> list (list ascii) -> Prop :=
  | chain_one s : chain s []
  | chain_cons s s' rest : rewrite_all rules (Z.to_nat k) s = Some s' -> chain s' rest -> chain s (s' :: rest).
  Lemma derivation_chain s : forall ss, derivation rules (Z.to_nat k) s ss -> exists rest, ss = s :: rest /\ chain s rest.
  Proof.
    intros ss. revert s. induction ss as [|x ss IH]; intros s [H0 Hd]; [discriminate|]. injection H0 as ->. exists ss. split; [reflexivity|]. destruct ss as [|y ss]; [constructor|].
    destruct (IH y) as (rest & E & Hc); [split; [reflexivity|intros i a b E1 E2; apply (Hd (Datatypes.S i) a b E1 E2)]|]. injection E as <-. constructor; [|assumption]. apply (Hd 0%nat s y); reflexivity.
  Qed.

  Notation shows st s := (exists lo l, rmap conv s = Ok l /\ st_act st = raw_of (row lo l)).

  (** [K] is where the run ends: either [K = T], or the rewriting of the last string raises *)
  Lemma subst_loop (g : args) (mk : memokey) T : runs g -> forall rest s l lo net u tab hist traj t fuel,
    chain s rest -> rmap conv s = Ok l -> windowed k lo (lo + Z.of_nat (length s)) net -> ss_time u < t -> ss_last u = lo + Z.of_nat (length s) - 1 ->
    Forall2 (fun st S => st_act st = raw_of S) traj (hist ++ [row lo l]) -> Z.of_nat (length hist) + 1 = t -> (length rest + 1 < fuel)%nat ->
    (t + Z.of_nat (length rest) = T -> exists c, loop W g mk (timestep_input T) fuel t (mkCfg u (row lo l) net tab (Some (get_neighbourhood_map net)) traj) = Ok c /\
       exists new, c_traj c = traj ++ new /\ Forall2 (fun st s => shows st s) new rest) /\
    (t + Z.of_nat (length rest) < T -> rewrite_all rules (Z.to_nat k) (last rest s) = None ->
       loop W g mk (timestep_input T) fuel t (mkCfg u (row lo l) net tab (Some (get_neighbourhood_map net)) traj) = Err KeyError).
  Proof.
    intros Hg. induction rest as [|s' rest IH]; intros s l lo net u tab hist traj t fuel Hch Es Hw Htm Hlast Hf Hl Hfuel; (destruct fuel as [|f]; [lia|]).
    - split.
      + intros ET. cbn [loop c_u c_act c_net length Z.of_nat] in *. unfold timestep_input. destruct (Z.eqb_spec t T); [|lia]. cbn [rbind]. eexists. split; [reflexivity|]. cbn [with_u c_traj]. exists []. rewrite app_nil_r. split; [reflexivity|constructor].
      + intros ET Er. cbn [last] in Er. cbn [loop c_u c_act c_net length Z.of_nat] in *. unfold timestep_input at 1. destruct (Z.eqb_spec t T); [lia|]. cbn [rbind]. unfold with_u. cbn [c_act c_net c_tab c_map c_traj].
        rewrite (subst_step_err g mk t u s l lo net tab hist traj KeyError Hg Es Hw Htm Hf Hl) by (apply outs_missing; exact Er). reflexivity.
    - inversion Hch as [|s1 s2 r1 Er Hch']; subst s1 s2 r1. destruct (images_convertible _ _ Er) as [l' El'].
      destruct (subst_step g mk t u s l lo net tab hist traj l' Hg Es Hw Htm Hlast Hf Hl (outs_images _ _ _ Er El')) as (u' & net' & sn & Estep & Hw' & Htm' & Hlast').
      pose proof (rmap_len _ _ _ El') as Hll. rewrite Hll in *.
      destruct (IH s' l' (lo + Z.of_nat (length s)) net' u' tab (hist ++ [row lo l]) (traj ++ [mkState (raw_of (row (lo + Z.of_nat (length s)) l')) sn]) (t + 1) f Hch' El' Hw' ltac:(lia) Hlast') as [IH1 IH2].
      + apply Forall2_app; [assumption|]. constructor; [reflexivity|constructor].
      + rewrite app_length. cbn [length]. lia.
      + cbn [length] in Hfuel. lia.
      + cbn [length] in *. cbn [loop c_u c_act c_net]. split.
        * intros ET. unfold timestep_input at 1. destruct (Z.eqb_spec t T); [lia|]. cbn [rbind]. unfold with_u at 1. cbn [c_act c_net c_tab c_map c_traj]. rewrite Estep. cbn [rbind].
          destruct IH1 as (c & Ec & new & Enew & Hnew); [lia|]. exists c. split; [exact Ec|]. eexists (_ :: new). rewrite Enew, <- app_assoc. cbn [app]. split; [reflexivity|]. constructor; [|assumption].
          cbn [st_act]. eauto.
        * intros ET Elast. unfold timestep_input at 1. destruct (Z.eqb_spec t T); [lia|]. cbn [rbind]. unfold with_u at 1. cbn [c_act c_net c_tab c_map c_traj]. rewrite Estep. cbn [rbind].
          apply IH2; [lia|]. rewrite last_cons in Elast. exact Elast.
  Qed.

  Lemma to_dict_row (l : list A) : (forall i, e_lab W i = Z.of_nat i) -> to_dict W (CList l) = row 0 l.
  Proof.
    intros Hlab. unfold to_dict, row, enumerate. rewrite Z.add_0_l.
    assert (Hg : forall (l : list A) i, map (fun il : nat * A => (e_lab W (fst il), snd il)) (combine (seq i (length l)) l) = combine (zrange (Z.of_nat i) (Z.of_nat i + Z.of_nat (length l))) l).
    { clear l. induction l as [|a l IH]; intros i; [cbn [length]; rewrite zrange_nil by (cbn; lia); reflexivity|]. cbn [length seq combine map fst snd]. rewrite (zrange_cons (Z.of_nat i)) by lia. cbn [combine]. rewrite Hlab. f_equal.
      rewrite IH. f_equal. f_equal; lia. }
    apply (Hg l 0%nat).
  Qed.

  Theorem subst_run (g : args) fuel u net s (axiom : list A) rest T :
    runs g -> (forall i, e_lab W i = Z.of_nat i) -> rmap conv s = Ok axiom -> windowed k 0 (Z.of_nat (length s)) net -> ss_time u < 1 -> ss_last u = Z.of_nat (length s) - 1 ->
    chain s rest -> (length rest + 1 < fuel)%nat ->
    (1 + Z.of_nat (length rest) = T -> exists uf traj, evolve W fuel u net (Some (CList axiom)) (Some T) None g = Ok (uf, traj) /\ Forall2 (fun st s => shows st s) traj (s :: rest)) /\
    (1 + Z.of_nat (length rest) < T -> rewrite_all rules (Z.to_nat k) (last rest s) = None -> evolve W fuel u net (Some (CList axiom)) (Some T) None g = Err KeyError).
  Proof.
    intros Hg Hlab Es Hw Htm Hlast Hch Hfuel. destruct Hg as [(Hr & Ht & Hp & Hm & Hc & Hpa) Ho].
    assert (Hg : runs g) by (unfold runs, static; auto 10).
    unfold evolve. cbn [get_input_function rbind]. rewrite (to_dict_row axiom Hlab).
    assert (Hlen : length (row 0 axiom) = net_len net).
    { assert (E : length (dkeys (row 0 axiom)) = length (nodes net)) by (unfold row; rewrite row_keys, (nodes_windowed _ _ _ _ Hw), !length_zrange, (rmap_len _ _ _ Es); reflexivity).
      unfold dkeys in E. rewrite map_length in E. rewrite E. unfold nodes, net_len, dkeys. apply map_length. }
    rewrite Hlen, Nat.eqb_refl. cbn [negb andb]. rewrite Hc, Ht.
    assert (Esa : set_activities W false (row 0 axiom) = Ok (raw_of (row 0 axiom))) by (unfold set_activities; destruct (row 0 axiom); reflexivity).
    rewrite Esa. cbn [rbind]. assert (Esn : exists sn, set_network W false net = Ok sn) by (unfold set_network; destruct (net_nodes net); eexists; reflexivity).
    destruct Esn as [sn ->]. cbn [rbind].
    destruct (subst_loop g (match g_key g with Some k => k | None => default_key net end) T Hg rest s axiom 0 net u [] (@nil acts) [mkState (raw_of (row 0 axiom)) sn] 1 fuel) as [L1 L2]; try assumption; try reflexivity.
    - constructor; [reflexivity|constructor].
    - split.
      + intros ET. destruct (L1 ET) as (c & Ec & new & Enew & Hnew). rewrite Ec. cbn [rbind]. exists (c_u c), (c_traj c). split; [reflexivity|]. rewrite Enew. constructor; [|assumption]. exists 0, axiom. auto.
      + intros ET Er. rewrite (L2 ET Er). reflexivity.
  Qed.
End Run.
