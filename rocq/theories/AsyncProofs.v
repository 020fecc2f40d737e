(** * Proofs about the asynchronous and reversible rules *)
From Verif Require Import Py PyFacts ListFacts Network Evolve EvolveSpec EvolveProofs EvolveProofs2 EvolveProofs3 EvolveStatic Async.
Open Scope string_scope.
Open Scope list_scope.
Open Scope Z_scope.

Lemma NoDup_app_l {X} (l l' : list X) : NoDup (l ++ l') -> NoDup l.
Proof. induction l as [|x l IH]; intros Hn; [constructor|]. inversion Hn; subst. constructor; [intros Hx; apply H1, in_or_app; auto|auto]. Qed.

Section Async.
  Context {L V A U I BA BN : Type} `{EqD L} `{EqD A}.
  Context (W : env L V A BA BN).
  Notation network := (network L V).
  Notation acts := (dict L A).
  Notation ctx := (node_ctx L V A I).
  Notation args := (@args L V A (U * async L) I).
  Notation call := (@call L V A I).
  Context (shuffle : nat -> nat -> list L) (rand : bool) (r : @rule L V A U I).

  Definition hits (o done : list L) : nat := length (filter (fun v => if in_dec eqd v o then true else false) done).

  Lemma hits_app o l l' : hits o (l ++ l') = (hits o l + hits o l')%nat.
  Proof. unfold hits. rewrite filter_app, app_length. reflexivity. Qed.
  Lemma hits_one o v : hits o [v] = if in_dec eqd v o then 1%nat else 0%nat.
  Proof. unfold hits. cbn. destruct (in_dec eqd v o); reflexivity. Qed.

  Lemma hits_all o l : NoDup o -> NoDup l -> incl o l -> hits o l = length o.
  Proof.
    intros Ho Hl Hincl. unfold hits. apply Permutation_length. apply NoDup_Permutation; [apply NoDup_filter; assumption|assumption|].
    intros v. rewrite filter_In. destruct (in_dec eqd v o); split; intros Hx; try tauto; try (destruct Hx; discriminate); try (split; [apply Hincl; assumption|reflexivity]).
  Qed.
  Lemma hits_lt o l v : NoDup o -> NoDup l -> In v o -> ~ In v l -> (hits o l < length o)%nat.
  Proof.
    intros Ho Hl Hv Hn. unfold hits. assert (Hnd : NoDup (v :: filter (fun v => if in_dec eqd v o then true else false) l)).
    { constructor; [rewrite filter_In; tauto|apply NoDup_filter; assumption]. }
    apply (NoDup_incl_length Hnd). intros w [<-|Hw]; [assumption|]. apply filter_In in Hw. destruct Hw as [_ Hw]. destruct (in_dec eqd w o); [assumption|discriminate].
  Qed.

  (** what the object's fields are after one complete sweep *)
  Definition next_async (a : async L) : async L :=
    mkAsync (if rand then shuffle (a_draws a) (length (a_order a)) else a_order a) ((a_curr a + 1) mod length (a_order a)) 0
            (if rand then S (a_draws a) else a_draws a).

  Definition mid (a : async L) (done : list L) : async L :=
    if (hits (a_order a) done <? length (a_order a))%nat then mkAsync (a_order a) (a_curr a) (hits (a_order a) done) (a_draws a) else next_async a.

  (** one call in the middle of a sweep *)
  Lemma async_call_mid (a : async L) c nodes done v rest u x uo o :
    nodes = done ++ v :: rest -> NoDup nodes -> NoDup (a_order a) -> incl (a_order a) nodes -> nth_error (a_order a) (a_curr a) = Some c ->
    (rand = false \/ Permutation (a_order a) nodes) -> x_label x = v ->
    async_call shuffle rand r (u, mid a done) x = Ok (uo, o) ->
    snd uo = mid a (done ++ [v]) /\
    (if eqd v c then r u x = Ok (fst uo, o) else fst uo = u /\ o = mkOut (x_cur x) [] []).
  Proof.
    intros En Hnd Hno Hincl Hc Hcase Hlab E.
    assert (Hpos : (0 < length (a_order a))%nat) by (destruct (a_order a); [destruct (a_curr a); discriminate|cbn; lia]).
    assert (Hnv : ~ In v done) by (rewrite En in Hnd; apply NoDup_remove_2 in Hnd; intros Hx; apply Hnd, in_or_app; auto).
    assert (Hndd : NoDup done) by (rewrite En in Hnd; apply NoDup_app_l in Hnd; assumption).
    assert (Hnvr : ~ In v rest) by (rewrite En in Hnd; apply NoDup_remove_2 in Hnd; intros Hx; apply Hnd, in_or_app; auto).
    unfold mid in *. rewrite hits_app, hits_one. unfold async_call in E. rewrite Hlab in E.
    destruct (in_dec eqd v (a_order a)) as [Hin|Hnin].
    - pose proof (hits_lt (a_order a) done v Hno Hndd Hin Hnv) as Hlt. destruct (Nat.ltb_spec (hits (a_order a) done) (length (a_order a))); [|lia].
      cbn [a_order a_curr a_applied a_draws] in E. destruct (in_dec eqd v (a_order a)); [|contradiction]. cbn [a_order a_curr a_applied a_draws] in E. rewrite Hc in E. cbn [of_opt rbind] in E.
      unfold check_for_end_of_cycle in E. cbn [a_order a_curr a_applied a_draws] in E.
      destruct (Nat.eqb_spec (S (hits (a_order a) done)) (length (a_order a))), (Nat.ltb_spec (hits (a_order a) done + 1) (length (a_order a))); try lia.
      + destruct (eqd v c).
        * inv_bind E uo1 Er. destruct uo1 as [u1 o1]. injection E as <- <-. cbn [fst snd]. split; [reflexivity|assumption].
        * injection E as <- <-. cbn [fst snd]. split; [reflexivity|auto].
      + replace (hits (a_order a) done + 1)%nat with (S (hits (a_order a) done)) by lia. destruct (eqd v c).
        * inv_bind E uo1 Er. destruct uo1 as [u1 o1]. injection E as <- <-. cbn [fst snd]. split; [reflexivity|assumption].
        * injection E as <- <-. cbn [fst snd]. split; [reflexivity|auto].
    - rewrite Nat.add_0_r. destruct Hcase as [Hr|Hp].
      2: { exfalso. apply Hnin. eapply Permutation_in; [symmetry; exact Hp|]. rewrite En. apply in_or_app. right. left. reflexivity. }
      assert (Hvc : v <> c) by (intros ->; apply Hnin; eapply nth_error_In; exact Hc).
      destruct (Nat.ltb_spec (hits (a_order a) done) (length (a_order a))).
      + cbn [a_order a_curr a_applied a_draws] in E. destruct (in_dec eqd v (a_order a)); [contradiction|]. cbn [a_order a_curr a_applied a_draws] in E. rewrite Hc in E. cbn [of_opt rbind] in E.
        unfold check_for_end_of_cycle in E. cbn [a_order a_curr a_applied a_draws] in E. destruct (Nat.eqb_spec (hits (a_order a) done) (length (a_order a))); [lia|].
        destruct (eqd v c); [contradiction|]. injection E as <- <-. cbn [fst snd]. auto.
      + unfold next_async in *. rewrite Hr in *. cbn [a_order a_curr a_applied a_draws] in E. destruct (in_dec eqd v (a_order a)); [contradiction|]. cbn [a_order a_curr a_applied a_draws] in E.
        destruct (nth_error (a_order a) ((a_curr a + 1) mod length (a_order a))) as [c'|] eqn:Ec'; [|discriminate]. cbn [of_opt rbind] in E.
        unfold check_for_end_of_cycle in E. cbn [a_order a_curr a_applied a_draws] in E. destruct (Nat.eqb_spec 0 (length (a_order a))); [lia|].
        destruct (eqd v c') as [->|]; [exfalso; apply Hnin; eapply nth_error_In; exact Ec'|]. destruct (eqd v c); [contradiction|]. injection E as <- <-. cbn [fst snd]. auto.
  Qed.

  (** the invocations of one sweep *)
  Lemma async_sweep (a : async L) c nodes u ks ua' : NoDup nodes -> NoDup (a_order a) -> incl (a_order a) nodes ->
    nth_error (a_order a) (a_curr a) = Some c -> a_applied a = 0%nat -> (rand = false \/ Permutation (a_order a) nodes) ->
    map (fun k => x_label (k_ctx k)) ks = nodes ->
    calls_from (async_call shuffle rand r) None (u, a) ks ua' ->
    snd ua' = next_async a /\
    forall k, In k ks -> k_fin k = o_act (k_out k) /\
      if eqd (x_label (k_ctx k)) c then r u (k_ctx k) = Ok (fst ua', k_out k)
      else k_out k = mkOut (x_cur (k_ctx k)) [] [].
  Proof.
    intros Hnd Hno Hincl Hc Ha Hcase Hlab Hcalls.
    assert (Hpos : (0 < length (a_order a))%nat) by (destruct (a_order a); [destruct (a_curr a); discriminate|cbn; lia]).
    assert (Hg : forall ks done u ua', calls_from (async_call shuffle rand r) None (u, mid a done) ks ua' -> done ++ map (fun k => x_label (k_ctx k)) ks = nodes ->
      snd ua' = mid a nodes /\ (~ In c (map (fun k => x_label (k_ctx k)) ks) -> fst ua' = u) /\ forall k, In k ks -> k_fin k = o_act (k_out k) /\
        if eqd (x_label (k_ctx k)) c then r u (k_ctx k) = Ok (fst ua', k_out k) else k_out k = mkOut (x_cur (k_ctx k)) [] []).
    { clear Hcalls Hlab ks u ua'. induction ks as [|k ks IH]; intros done u ua' Hk En.
      - cbn in En. rewrite app_nil_r in En. subst. inversion Hk; subst. split; [reflexivity|]. split; [auto|intros k []].
      - inversion Hk as [|? u1 u2 ? x o fin ? Ecall Hp Hrest]; subst. destruct Hp as [-> ->]. cbn [map k_ctx] in *.
        destruct (async_call_mid a c (done ++ x_label x :: map (fun k => x_label (k_ctx k)) ks) done (x_label x) (map (fun k => x_label (k_ctx k)) ks) u x u1 o
          eq_refl Hnd Hno Hincl Hc Hcase eq_refl Ecall) as [Es Ho].
        destruct u1 as [u1 a1]. cbn [snd fst] in *. subst a1.
        destruct (IH (done ++ [x_label x]) u1 ua' Hrest) as (Es' & Hu & Hks); [rewrite <- app_assoc; reflexivity|].
        assert (Hnx : ~ In (x_label x) (map (fun k => x_label (k_ctx k)) ks)) by (apply NoDup_remove_2 in Hnd; intros Hx; apply Hnd, in_or_app; auto).
        split; [assumption|]. destruct (eqd (x_label x) c) as [Exc|Hxc].
        + split; [intros Hx; exfalso; apply Hx; left; assumption|]. rewrite Exc in Hnx. intros k [<-|Hin].
          * cbn [k_ctx k_out k_fin]. split; [reflexivity|]. destruct (eqd (x_label x) c); [|contradiction]. rewrite (Hu Hnx). assumption.
          * destruct (Hks k Hin) as [Hk1 Hk2]. split; [assumption|]. destruct (eqd (x_label (k_ctx k)) c) as [Ekc|]; [|assumption].
            exfalso. apply Hnx. apply in_map_iff. eauto.
        + destruct Ho as [-> ->]. split; [intros Hx; apply Hu; intros Hy; apply Hx; right; assumption|]. intros k [<-|Hin].
          * cbn [k_ctx k_out k_fin]. split; [reflexivity|]. destruct (eqd (x_label x) c); [contradiction|]. reflexivity.
          * apply Hks. assumption. }
    assert (Em : mid a [] = a).
    { unfold mid, hits. cbn [filter length]. destruct (Nat.ltb_spec 0 (length (a_order a))); [|lia]. destruct a; cbn in *. subst. reflexivity. }
    destruct (Hg ks [] u ua') as (Es & _ & Hks); [rewrite Em; assumption|assumption|]. split; [|assumption].
    rewrite Es. unfold mid. rewrite (hits_all _ _ Hno Hnd Hincl). destruct (Nat.ltb_spec (length (a_order a)) (length (a_order a))); [lia|reflexivity].
  Qed.

  (** the activities after one sweep *)
  Definition async_updated (n : network) (u : U) (S : acts) (t : Z) past inp (c : L) (u' : U) (S' : acts) : Prop :=
    map fst S' = nodes n /\
    (forall w, In w (nodes n) -> w <> c -> dget S' w = dget S w) /\
    exists (x : ctx) o, ctx_for W n S t past inp c x /\ r u x = Ok (u', o) /\ dget S' c = Some (o_act o).

  Definition keeps_nodes : Prop := forall u x u' o, r u x = Ok (u', o) -> o_added o = [] /\ o_removed o = [].

  Lemma async_step (g : args) (a : async L) c n S t past inp u ks ua' S' :
    g_rule g = Some (async_call shuffle rand r) -> g_pert g = None -> keeps_nodes ->
    NoDup (nodes n) -> NoDup (a_order a) -> incl (a_order a) (nodes n) -> nth_error (a_order a) (a_curr a) = Some c -> a_applied a = 0%nat ->
    (rand = false \/ Permutation (a_order a) (nodes n)) ->
    activities_step W g n S t past inp (u, a) ks ua' S' ->
    snd ua' = next_async a /\ added_of ks = [] /\ removed_of ks = [] /\ async_updated n u S t past inp c (fst ua') S'.
  Proof.
    intros Hr Hp Hkeep Hnd Hno Hincl Hc Ha Hcase Hs. unfold activities_step in Hs. rewrite Hr, Hp in Hs. destruct Hs as (Hf & Hcalls & ->).
    assert (El : map (fun k => x_label (k_ctx k)) ks = nodes n) by (eapply Forall2_map_fst; [|exact Hf]; intros v x Hx; apply (cf_label _ _ _ _ _ _ _ _ Hx)).
    destruct (async_sweep a c (nodes n) u ks ua' Hnd Hno Hincl Hc Ha Hcase El Hcalls) as [Es Hks].
    split; [assumption|].
    assert (Hnone : forall k, In k ks -> o_added (k_out k) = [] /\ o_removed (k_out k) = []).
    { intros k Hk. destruct (Hks k Hk) as [_ Hx]. destruct (eqd (x_label (k_ctx k)) c); [eapply Hkeep; exact Hx|rewrite Hx; auto]. }
    assert (E1 : added_of ks = [] /\ removed_of ks = [] /\ kept ks = map (fun k => (x_label (k_ctx k), k_fin k)) ks).
    { unfold added_of, removed_of, kept, own_removed. clear - Hnone. induction ks as [|k ks IH]; [auto|]. destruct IH as (I1 & I2 & I3); [intros; apply Hnone; right; assumption|].
      destruct (Hnone k (or_introl eq_refl)) as [Ea Er]. cbn [flat_map filter map]. rewrite Ea, Er, I1, I2. cbn [existsb negb app map]. rewrite I3. auto. }
    destruct E1 as (E1 & E2 & E3). split; [assumption|]. split; [assumption|]. unfold new_activities. rewrite E1, E3. cbn [fold_left].
    assert (Hget : forall k, In k ks -> dget (map (fun k => (x_label (k_ctx k), k_fin k)) ks) (x_label (k_ctx k)) = Some (k_fin k)).
    { intros k Hk. apply dget_in; [unfold dkeys; rewrite map_map; cbn [fst]; rewrite El; assumption|]. apply in_map_iff. eauto. }
    split; [rewrite map_map; exact El|]. split.
    - intros w Hw Hne. destruct (Forall2_in_l _ _ _ _ Hf Hw) as (x & Hx & Hcx). apply in_map_iff in Hx. destruct Hx as (k & <- & Hin).
      pose proof (cf_label _ _ _ _ _ _ _ _ Hcx) as Elab. rewrite <- Elab, (Hget k Hin). destruct (Hks k Hin) as [-> Hx]. rewrite Elab in Hx. destruct (eqd w c); [contradiction|].
      rewrite Hx. cbn [o_act]. rewrite Elab. symmetry. apply (cf_cur _ _ _ _ _ _ _ _ Hcx).
    - assert (Hci : In c (nodes n)) by (apply Hincl; eapply nth_error_In; exact Hc).
      destruct (Forall2_in_l _ _ _ _ Hf Hci) as (x & Hx & Hcx). apply in_map_iff in Hx. destruct Hx as (k & <- & Hin).
      pose proof (cf_label _ _ _ _ _ _ _ _ Hcx) as Elab. destruct (Hks k Hin) as [Efin Hx]. rewrite Elab in Hx. destruct (eqd c c); [|congruence].
      exists (k_ctx k), (k_out k). split; [assumption|]. split; [assumption|]. rewrite <- Efin. rewrite <- Elab at 1. apply Hget. assumption.
  Qed.

  (** the fields at the beginning of step k *)
  Fixpoint async_at (a : async L) (k : nat) : async L := match k with O => a | S k' => next_async (async_at a k') end.

  Definition input_keeps (inp : option (@input L V A (U * async L) I)) : Prop :=
    match inp with Some (InputFun f) => forall u t S n u' i, f u t S n = Ok (u', i) -> u' = u | _ => True end.

  Theorem async_run fuel (u0 : U) a n initial ts inp (g : args) uf traj :
    g_rule g = Some (async_call shuffle rand r) -> g_topo g = None -> g_pert g = None -> g_memo g = false -> g_comp g = false -> g_pact g = true ->
    keeps_nodes -> input_keeps inp -> NoDup (nodes n) ->
    (forall k, let b := async_at a k in NoDup (a_order b) /\ incl (a_order b) (nodes n) /\ a_order b <> [] /\ (a_curr b < length (a_order b))%nat /\ a_applied b = 0%nat /\
       (rand = false \/ Permutation (a_order b) (nodes n))) ->
    evolve W fuel (u0, a) n initial ts inp g = Ok (uf, traj) ->
    exists hs : list (U * acts), nth_error hs 0 = Some (u0, match initial with None => [] | Some c => to_dict W c end) /\
      Forall2 (fun s S => activities W s = Ok (shown_acts (snd S))) traj hs /\
      forall k u S u' S', nth_error hs k = Some (u, S) -> nth_error hs (Datatypes.S k) = Some (u', S') ->
        exists past i c, nth_error (a_order (async_at a k)) (a_curr (async_at a k)) = Some c /\
          async_updated n u S (Z.of_nat k + 1) past i c u' S'.
  Proof.
    intros Hr Ht Hp Hm Hcomp Hpa Hkeep Hin Hnd Hb E.
    assert (Hni : no_insert g).
    { intros r0 u x u' o Er Eo. rewrite Hr in Er. injection Er as <-. destruct u as [u b]. unfold async_call in Eo.
      inv_bind Eo c Ec. destruct (eqd (x_label x) c); [inv_bind Eo uo Er; destruct uo; injection Eo as <- <-; eapply Hkeep; eassumption|injection Eo as <- <-; auto]. }
    assert (Hok : topo_ok g) by (intros f u c u' n' Ef; rewrite Ht in Ef; discriminate).
    destruct (evolve_meets_spec W fuel (u0, a) n initial ts inp g uf traj Hm Hnd Hok (or_introl Ht) E) as (infn & hs & Hinf & Hrun).
    assert (Hinfn : forall u t S m u' i, infn u t S m = Ok (u', i) -> u' = u).
    { destruct inp as [[l|f]|]; cbn in Hinf.
      - injection Hinf as <-. intros u t S m u' i Ei. unfold list_input in Ei. destruct (_ <=? _); [injection Ei as <- _; reflexivity|]. inv_bind Ei y Ey. injection Ei as <- _. reflexivity.
      - injection Hinf as <-. exact Hin.
      - destruct ts; [|discriminate]. injection Hinf as <-. intros u t S m u' i Ei. injection Ei as <- _. reflexivity. }
    assert (Hstep : forall k h h', nth_error hs k = Some h -> nth_error hs (S k) = Some h' -> h_net h = n -> snd (h_u h) = async_at a k ->
      h_net h' = n /\ snd (h_u h') = async_at a (S k) /\ exists past i c, nth_error (a_order (async_at a k)) (a_curr (async_at a k)) = Some c /\
          async_updated n (fst (h_u h)) (h_act h) (Z.of_nat k + 1) past i c (fst (h_u h')) (h_act h')).
    { intros k h h' Ek Ek' Hnet Hu. destruct (rs_step _ _ _ _ _ _ _ _ _ Hrun k h h' Ek Ek') as (u & i & past & s & Ei & _ & Hts & _).
      apply Hinfn in Ei. subst u. destruct (h_u h) as [u b] eqn:Ehu. cbn [snd fst] in *. subst b. destruct (Hb k) as (B1 & B2 & B3 & B4 & B5 & B6).
      destruct (nth_error (a_order (async_at a k)) (a_curr (async_at a k))) as [c|] eqn:Ec; [|apply nth_error_None in Ec; lia].
      unfold timestep in Hts.
      assert (Hts' : exists ks, activities_step W g n (h_act h) (Z.of_nat k + 1) past i (u, async_at a k) ks (h_u h') (h_act h') /\ h_net h' = n).
      { destruct (g_order g).
        - destruct Hts as (ks & u1 & n1 & Hs & Hadj & Htop). unfold topology_step in Htop. rewrite Ht in Htop. destruct Htop as [Hu' Hn']. rewrite Hnet in *.
          destruct (async_step g (async_at a k) c n _ _ _ _ _ _ _ _ Hr Hp Hkeep Hnd B1 B2 Ec B5 B6 Hs) as (_ & E1 & E2 & _).
          rewrite E1, E2 in Hadj. exists ks. rewrite Hu', Hn'. split; [assumption|exact Hadj].
        - destruct Hts as (ks & u1 & Htop & Hs). unfold topology_step in Htop. rewrite Ht in Htop. destruct Htop as [-> Hn']. rewrite Hn', Hnet in *. eauto.
        - destruct Hts as (ks & u1 & Htop & Hs). unfold topology_step in Htop. rewrite Ht in Htop. destruct Htop as [-> Hn']. rewrite Hn', Hnet in *. eauto. }
      destruct Hts' as (ks & Hs & Hn'). split; [assumption|].
      destruct (async_step g (async_at a k) c n _ _ _ _ _ _ _ _ Hr Hp Hkeep Hnd B1 B2 Ec B5 B6 Hs) as (Es & _ & _ & Hup). split; [assumption|]. eauto 10. }
    exists (map (fun h => (fst (h_u h), h_act h)) hs). rewrite nth_error_map, (rs_first _ _ _ _ _ _ _ _ _ Hrun). split; [reflexivity|].
    assert (Hall : forall k h, nth_error hs k = Some h -> h_net h = n /\ snd (h_u h) = async_at a k).
    { induction k as [|k IH]; intros h Ek; [rewrite (rs_first _ _ _ _ _ _ _ _ _ Hrun) in Ek; injection Ek as <-; auto|].
      destruct (nth_error hs k) as [h0|] eqn:E0; [|apply nth_error_None in E0; assert (nth_error hs (S k) = None) by (apply nth_error_None; lia); congruence].
      destruct (IH h0 eq_refl) as [H1' H2']. destruct (Hstep k h0 h E0 Ek H1' H2') as (H3 & H4 & _). auto. }
    split.
    - apply Forall2_nth_intro; [rewrite map_length; symmetry; apply (rs_length _ _ _ _ _ _ _ _ _ Hrun)|]. intros k s S Es ES.
      rewrite nth_error_map in ES. destruct (nth_error hs k) as [h|] eqn:Eh; [|discriminate]. injection ES as <-. destruct k as [|k].
      + rewrite (rs_first _ _ _ _ _ _ _ _ _ Hrun) in Eh. injection Eh as <-. destruct (rs_first_state _ _ _ _ _ _ _ _ _ Hrun) as (s' & Es' & E1 & E2).
        assert (s' = s) by congruence. subst s'. rewrite Hcomp in *. apply set_acts_shown. assumption.
      + destruct (nth_error hs k) as [h0|] eqn:E0; [|apply nth_error_None in E0; assert (nth_error hs (S k) = None) by (apply nth_error_None; lia); congruence].
        destruct (rs_step _ _ _ _ _ _ _ _ _ Hrun k h0 h E0 Eh) as (u & i & past & s' & _ & _ & _ & Es' & Hsa & _).
        assert (s' = s) by congruence. subst s'. unfold shows_a in Hsa. rewrite Hpa, Hcomp in Hsa. apply set_acts_shown. assumption.
    - intros k u S u' S' Ek Ek'. rewrite nth_error_map in Ek, Ek'. destruct (nth_error hs k) as [h|] eqn:Eh; [|discriminate]. destruct (nth_error hs (Datatypes.S k)) as [h'|] eqn:Eh'; [|discriminate].
      injection Ek as <- <-. injection Ek' as <- <-. destruct (Hall k h Eh) as [H1' H2']. apply (Hstep k h h' Eh Eh' H1' H2').
  Qed.
End Async.

(** ** The fields over time *)
Section Fields.
  Context {L : Type} (shuffle : nat -> nat -> list L).

  Lemma async_at_fixed (o : list L) c d : o <> [] -> (c < length o)%nat -> forall k,
    async_at shuffle false (mkAsync o c 0 d) k = mkAsync o ((c + k) mod length o) 0 d.
  Proof.
    intros Hne Hc. assert (Hl : length o <> 0%nat) by (destruct o; [congruence|discriminate]). induction k as [|k IH]; cbn [async_at].
    - rewrite Nat.add_0_r, Nat.mod_small by assumption. reflexivity.
    - rewrite IH. unfold next_async. cbn [a_order a_curr a_draws]. f_equal. rewrite Nat.add_mod_idemp_l by assumption. f_equal. lia.
  Qed.

  Lemma async_at_random (nodes : list L) o d : (forall d, Permutation (shuffle d (length nodes)) nodes) -> nodes <> [] -> Permutation o nodes -> forall k,
    let b := async_at shuffle true (mkAsync o 0 0 d) k in
    Permutation (a_order b) nodes /\ a_curr b = (k mod length nodes)%nat /\ a_applied b = 0%nat.
  Proof.
    intros Hs Hne Ho. assert (Hl : length nodes <> 0%nat) by (destruct nodes; [congruence|discriminate]). induction k as [|k IH]; cbn [async_at].
    - cbn. rewrite Nat.mod_0_l by assumption. auto.
    - destruct IH as (H1 & H2 & H3). unfold next_async. cbn [a_order a_curr a_applied]. rewrite H2, (Permutation_length H1). split; [apply Hs|]. split; [|reflexivity].
      rewrite Nat.add_mod_idemp_l by assumption. f_equal. lia.
  Qed.
End Fields.

Lemma each_once (len k0 p : nat) : (p < len)%nat -> exists j, ((k0 <= j < k0 + len)%nat /\ (j mod len = p)%nat) /\
  forall j', (k0 <= j' < k0 + len)%nat -> (j' mod len = p)%nat -> j' = j.
Proof.
  intros Hp. assert (Hl : len <> 0%nat) by lia. pose proof (Nat.div_mod k0 len Hl) as Hd. pose proof (Nat.mod_upper_bound k0 len Hl) as Hm.
  assert (Hmod : forall q, ((len * q + p) mod len = p)%nat) by (intros q; rewrite Nat.add_comm, Nat.mul_comm, Nat.mod_add by assumption; apply Nat.mod_small; assumption).
  assert (Huniq : forall j j', (k0 <= j < k0 + len)%nat -> (k0 <= j' < k0 + len)%nat -> (j mod len = j' mod len)%nat -> j = j').
  { intros j j' Hj Hj' E. pose proof (Nat.div_mod j len Hl) as D1. pose proof (Nat.div_mod j' len Hl) as D2. rewrite E in D1. revert D1 D2. generalize (j / len)%nat (j' / len)%nat (j' mod len)%nat. intros a b m D1 D2.
    assert (a = b) by nia. subst. lia. }
  destruct (le_lt_dec (k0 mod len) p) as [Hle|Hlt].
  - exists (len * (k0 / len) + p)%nat. split; [split; [lia|apply Hmod]|]. intros j' Hj' E. apply Huniq; [assumption|lia|]. rewrite E, Hmod. reflexivity.
  - exists (len * (k0 / len + 1) + p)%nat. split; [split; [lia|apply Hmod]|]. intros j' Hj' E. apply Huniq; [assumption|lia|]. rewrite E, Hmod. reflexivity.
Qed.
