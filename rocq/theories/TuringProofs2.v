(** * Proofs about the Turing machines: the tape-centric one, and the annotations for plotting *)
From Verif Require Import Py PyFacts ListFacts Network Topology TopologySpec TopologyProofs TopologyProofs4.
From Verif Require Import Evolve EvolveSpec EvolveProofs EvolveProofs2 EvolveProofs3 EvolveStatic Utils UtilsProofs TuringSpec Turing TuringProofs.
Open Scope string_scope.
Open Scope list_scope.
Open Scope Z_scope.

(** ** Sweeps that raise *)
Section SweepErr.
  Context {L V A U I BA BN : Type} `{EqD L} `{EqD A}.
  Context (W : env L V A BA BN).

  Lemma sweep_err (g : @args L V A U I) (mk : @memokey L V A I) (r : @rule L V A U I) t prev n past (tab : list (mk_K mk * A)) (u : U) (J : list L -> U -> dict L A -> Prop) done0 v0 rest0 e :
    g_memo g = false -> g_pert g = None -> closed n -> covers n prev -> nodes n = done0 ++ v0 :: rest0 ->
    J [] u [] ->
    (forall done v rest u curr x, done0 = done ++ v :: rest -> J done u curr -> ctx_for W n prev t past (InStr "__timestep__") v x ->
       exists u' a, r u x = Ok (u', mkOut a [] []) /\ J (done ++ [v]) u' (dset curr v a)) ->
    (forall u curr x, J done0 u curr -> ctx_for W n prev t past (InStr "__timestep__") v0 x -> r u x = Err e) ->
    do_activity_rule W g mk r t (InStr "__timestep__") u prev tab n past (Some (get_neighbourhood_map n)) = Err e.
  Proof.
    intros Hm Hp Hc Hcov En0 HJ Hstep Herr. unfold do_activity_rule. rewrite En0, rfold_app.
    assert (Hg : forall rest done s, done0 = done ++ rest -> s_added s = [] -> s_removed s = [] -> J done (s_u s) (s_curr s) ->
      exists s', rfold (node_step W g mk r t (InStr "__timestep__") prev n past (Some (get_neighbourhood_map n))) rest s = Ok s' /\
        s_added s' = [] /\ s_removed s' = [] /\ J done0 (s_u s') (s_curr s')).
    { induction rest as [|v rest IH]; intros done s En Ha Hr Hj.
      - rewrite app_nil_r in En. exists s. rewrite En. auto.
      - cbn [rfold]. destruct (node_context_total (I := I) W t prev n past v Hc Hcov) as (x & Ex & Hx); [rewrite En0, En, <- app_assoc; apply in_or_app; right; left; reflexivity|].
        destruct (Hstep done v rest (s_u s) (s_curr s) x En Hj Hx) as (u' & a & Er & Hj').
        unfold node_step at 1. rewrite Ex. cbn [rbind]. unfold apply_rule. rewrite Hm, Er. cbn [rbind o_added o_removed o_act existsb]. rewrite Hp. cbn [rbind].
        apply (IH (done ++ [v])); cbn [s_added s_removed s_tab s_u s_curr]; try (rewrite app_nil_r); try assumption.
        rewrite <- app_assoc. exact En. }
    destruct (Hg done0 [] (mkNst u [] tab [] []) eq_refl eq_refl eq_refl HJ) as (s & Es & Ha & Hr & Hj). rewrite Es. cbn [rbind rfold].
    destruct (node_context_total (I := I) W t prev n past v0 Hc Hcov) as (x & Ex & Hx); [rewrite En0; apply in_or_app; right; left; reflexivity|].
    unfold node_step at 1. rewrite Ex. cbn [rbind]. unfold apply_rule. rewrite Hm, (Herr _ _ x Hj Hx). reflexivity.
  Qed.
End SweepErr.

(** ** The tape *)
Section Tape.
  Context {Q S BA BN I : Type} `{EqD Q} `{EqD S}.
  Context (W : env Z Z S BA BN) (table : dict Q (dict S (Q * S * Z))).
  Notation conf := (conf Q S).
  Notation args := (@args Z Z S (tape_centric Q) I).

  (** the activities show a tape *)
  Definition shows (d : dict Z S) (tape : list S) : Prop :=
    NoDup (dkeys d) /\ (forall k, In k (dkeys d) <-> 0 <= k < Z.of_nat (length tape)) /\
    forall k, 0 <= k < Z.of_nat (length tape) -> dget d k = nth_error tape (Z.to_nat k).

  Definition head (c : conf) : Q * Z := (cf_q c, cf_p c).

  (** the directions that the abstract machine lacks but Python's indexing accepts *)
  Definition no_negative : Prop := forall q s q' s' d, entry table q s = Some (q', s', d) -> 0 <= d.

  Definition failure (c : conf) : exn :=
    match nth_error (cf_tape c) (Z.to_nat (cf_p c)) with
    | Some s => match entry table (cf_q c) s with None => Raise "no rule defined" | Some _ => IndexError end
    | None => IndexError
    end.

  Lemma tc_other u (x : node_ctx Z Z S I) t h q p : x_time x = t -> tc_history u = h -> py_nth h (t - 1) = Some (q, p) -> x_label x <> p ->
    tc_rule table u x = Ok (mkTC h t, mkOut (x_cur x) [] []).
  Proof.
    intros Ht Hh Ep Hne. unfold tc_rule.
    assert (Em : (if x_time x =? tc_timestep u then u else mkTC (tc_history u) (x_time x)) = mkTC h t).
    { destruct u as [h' t']. cbn in *. subst. destruct (Z.eqb_spec (x_time x) t') as [<-|]; reflexivity. }
    rewrite Em. cbn [tc_history tc_timestep]. rewrite Ep. cbn [of_opt rbind]. destruct (Z.eqb_spec (x_label x) p); [congruence|]. reflexivity.
  Qed.

  Lemma tc_head u (x : node_ctx Z Z S I) t h q p n : x_time x = t -> tc_history u = h -> py_nth h (t - 1) = Some (q, p) -> x_label x = p ->
    x_nbrs x = map (fun d => (p + d) mod n) (zrange (-1) (1 + 1)) ->
    match entry table q (x_cur x) with
    | None => tc_rule table u x = Err (Raise "no rule defined")
    | Some (q', s', d) =>
        match move d with
        | Some m => tc_rule table u x = Ok (mkTC (h ++ [(q', (p + m) mod n)]) t, mkOut s' [] [])
        | None => 0 <= d -> tc_rule table u x = Err IndexError
        end
    end.
  Proof.
    intros Ht Hh Ep Hl Hn. unfold tc_rule.
    assert (Em : (if x_time x =? tc_timestep u then u else mkTC (tc_history u) (x_time x)) = mkTC h t).
    { destruct u as [h' t']. cbn in *. subst. destruct (Z.eqb_spec (x_time x) t') as [<-|]; reflexivity. }
    rewrite Em. cbn [tc_history tc_timestep]. rewrite Ep. cbn [of_opt rbind]. destruct (Z.eqb_spec (x_label x) p); [|congruence].
    rewrite lookup_entry. destruct (entry table q (x_cur x)) as [[[q' s'] d]|]; [|reflexivity]. cbn [rbind]. rewrite Hn.
    change (zrange (-1) (1 + 1)) with [-1; 0; 1]. cbn [map]. unfold move. destruct (Z.leb_spec 0 d), (Z.leb_spec d 2); cbn [andb].
    - assert (Hd : d = 0 \/ d = 1 \/ d = 2) by lia. destruct Hd as [->|[->| ->]]; reflexivity.
    - intros _. unfold py_nth, py_index. cbn [length]. destruct (Z.leb_spec 0 d); [|lia]. destruct (Z.ltb_spec d (Z.of_nat 3)); [lia|]. cbn [andb].
      destruct (Z.ltb_spec d 0); [lia|]. rewrite andb_false_r. reflexivity.
    - lia.
    - lia.
  Qed.

  Section Run.
    Context (n : Z) (net : network Z Z) (Hn : 3 <= n) (Enet : tc_network n = Ok net).

    Lemma tape_net : NoDup (nodes net) /\ (forall v, In v (nodes net) <-> 0 <= v < n) /\ closed net /\
      (forall v l, 0 <= v < n -> nbrs_of net v l -> l = map (fun d => (v + d) mod n) (zrange (-1) (1 + 1))) /\ Z.of_nat (net_len net) = n.
    Proof.
      unfold tc_network in Enet. destruct (ca1d_ordered n 1 Hn ltac:(lia)) as (net' & rs & E & Erot & _ & Hnd & Hnodes & Hv).
      destruct (ca1d_order n 1 Hn ltac:(lia) ltac:(lia)) as (net2 & rs2 & E2 & Erot2 & _ & Hv2).
      assert (net' = net) by congruence. subst net'. assert (net2 = net) by congruence. subst net2. assert (rs2 = rs) by congruence. subst rs2.
      split; [assumption|]. split; [assumption|]. split; [|split].
      - intros v Hin. apply Hnodes in Hin. destruct (Hv v Hin) as (T & l & inc & _ & Ei & _). exists inc. eexists. split; [exact Ei|]. unfold nbrs_of. rewrite Erot.
        split; [apply Hv2; assumption|]. intros w Hw. apply in_map_iff in Hw. destruct Hw as (d & <- & _). apply Hnodes, Z.mod_pos_bound. lia.
      - intros v l Hr Hl. unfold nbrs_of in Hl. rewrite Erot, (Hv2 v Hr) in Hl. injection Hl as <-; reflexivity.
      - unfold net_len. rewrite <- (map_length fst). change (map fst (net_nodes net)) with (nodes net).
        assert (Hp : Permutation (nodes net) (zrange 0 n)) by (apply NoDup_Permutation; [assumption|apply NoDup_zrange|]; intros v; rewrite Hnodes, in_zrange; tauto).
        rewrite (Permutation_length Hp), length_zrange. lia.
    Qed.

    Lemma shows_covers d tape : Z.of_nat (length tape) = n -> shows d tape -> covers net d.
    Proof.
      intros Hl (_ & _ & Hg) v Hv. destruct tape_net as (_ & Hnodes & _). apply Hnodes in Hv. rewrite Hg by lia.
      destruct (nth_error tape (Z.to_nat v)) as [a|] eqn:E; [eauto|]. apply nth_error_None in E. lia.
    Qed.

    Definition J (h : list (Q * Z)) (p : Z) (w : list (Q * Z)) (tape' : list S) (done : list Z) (u : tape_centric Q) (curr : dict Z S) : Prop :=
      dkeys curr = done /\ (forall v, In v done -> dget curr v = nth_error tape' (Z.to_nat v)) /\
      tc_history u = h ++ (if in_dec Z.eq_dec p done then w else []).

    Lemma J_other h p q w tape tape' d past t done v rest u curr (x : node_ctx Z Z S I) :
      nth_error h (Z.to_nat (t - 1)) = Some (q, p) -> 1 <= t -> shows d tape -> Z.of_nat (length tape) = n -> NoDup (done ++ v :: rest) -> 0 <= v < n ->
      (forall k, 0 <= k < n -> k <> p -> nth_error tape' (Z.to_nat k) = nth_error tape (Z.to_nat k)) ->
      J h p w tape' done u curr -> ctx_for W net d t past (InStr "__timestep__") v x -> v <> p ->
      exists u' a, tc_rule table u x = Ok (u', mkOut a [] []) /\ J h p w tape' (done ++ [v]) u' (dset curr v a).
    Proof.
      intros Hh Ht (_ & _ & Hg) Hl Hnd Hv Hsame (Hk & Hd & Hu) Hx Hne.
      rewrite (tc_other u x t (h ++ (if in_dec Z.eq_dec p done then w else [])) q p); [|apply (cf_time _ _ _ _ _ _ _ _ Hx)|assumption| |rewrite (cf_label _ _ _ _ _ _ _ _ Hx); assumption].
      2: { replace (t - 1) with (Z.of_nat (Z.to_nat (t - 1))) by lia. unfold py_nth. assert (Z.to_nat (t - 1) < length h)%nat by (apply nth_error_Some; congruence).
        rewrite py_index_at by (rewrite app_length; lia). rewrite Nat2Z.id, nth_error_app1 by assumption. assumption. }
      eexists. eexists. split; [reflexivity|]. apply NoDup_remove_2 in Hnd. assert (Hnew : ~ In v done) by (intros Hi; apply Hnd, in_or_app; auto). split.
      - rewrite dkeys_dset. assert (Em : dmem curr v = false) by (apply dmem_false; unfold dkeys in *; rewrite Hk; assumption). rewrite Em, Hk. reflexivity.
      - split.
        + intros k Hin. rewrite dget_dset. destruct (eqd k v) as [->|Hkv].
          * rewrite <- (cf_cur _ _ _ _ _ _ _ _ Hx), (Hg v), Hsame by lia. reflexivity.
          * apply in_app_or in Hin. destruct Hin as [Hin|[Hin|[]]]; [auto|congruence].
        + cbn [tc_history]. f_equal. destruct (in_dec Z.eq_dec p done) as [Hi|Hi], (in_dec Z.eq_dec p (done ++ [v])) as [Hi'|Hi']; try reflexivity; exfalso.
          * apply Hi', in_or_app. auto.
          * apply in_app_or in Hi'. destruct Hi' as [|[|[]]]; [auto|congruence].
    Qed.

    Lemma tape_sweep (g : args) (mk : memokey) (tab : list (mk_K mk * S)) t u d past h c c' :
      g_memo g = false -> g_pert g = None -> 1 <= t ->
      tc_history u = h -> length h = Z.to_nat t -> nth_error h (Z.to_nat (t - 1)) = Some (head c) -> shows d (cf_tape c) -> Z.of_nat (length (cf_tape c)) = n -> good c ->
      next table c = Some c' ->
      exists s, do_activity_rule W g mk (tc_rule table) t (InStr "__timestep__") u d tab net past (Some (get_neighbourhood_map net)) = Ok s /\
        s_added s = [] /\ s_removed s = [] /\ tc_history (s_u s) = h ++ [head c'] /\ shows (s_curr s) (cf_tape c').
    Proof.
      intros Hm Hp Ht Hu Hlh Hh Hs Hl Hg En. destruct tape_net as (Hnd & Hnodes & Hclosed & Hnb & Hlen).
      destruct (next_good table c c' Hg En) as [Hg' Hl']. unfold next in En.
      destruct (nth_error (cf_tape c) (Z.to_nat (cf_p c))) as [s|] eqn:Es; [|discriminate]. destruct (entry table (cf_q c) s) as [[[q' s'] dr]|] eqn:Ee; [|discriminate].
      destruct (move dr) as [m|] eqn:Em; [|discriminate]. injection En as Ec'.
      assert (Etape : cf_tape c' = upd_nth (cf_tape c) (Z.to_nat (cf_p c)) (fun _ => s')) by (rewrite <- Ec'; cbn [cf_tape]; symmetry; apply upd_nth_split with (x := s); assumption).
      assert (Hsame : forall k, 0 <= k < n -> k <> cf_p c -> nth_error (cf_tape c') (Z.to_nat k) = nth_error (cf_tape c) (Z.to_nat k)).
      { intros k Hk Hne. rewrite Etape, nth_error_upd_nth. destruct (Nat.eq_dec (Z.to_nat k) (Z.to_nat (cf_p c))); [unfold good in Hg; lia|reflexivity]. }
      destruct (sweep_total W g mk (tc_rule table) t d net past tab u (J h (cf_p c) [head c'] (cf_tape c')) Hm Hp Hclosed (shows_covers _ _ Hl Hs)) as (st & Est & Ha & Hr & _ & Hk & Hd & Hu').
      - split; [reflexivity|]. split; [intros v []|]. destruct (in_dec Z.eq_dec (cf_p c) []) as [[]|]. rewrite app_nil_r. assumption.
      - intros done v rest u1 curr x Enodes HJ Hx. assert (Hv : 0 <= v < n) by (apply Hnodes; rewrite Enodes; apply in_or_app; right; left; reflexivity).
        rewrite Enodes in Hnd. destruct (Z.eq_dec v (cf_p c)) as [->|Hne].
        2: { eapply (J_other h (cf_p c) (cf_q c) [head c'] (cf_tape c) (cf_tape c') d past t done v rest); eassumption. }
        destruct HJ as (Hk & Hd & Hu1). destruct Hs as (_ & _ & Hgd).
        apply NoDup_remove_2 in Hnd. assert (Hnew : ~ In (cf_p c) done) by (intros Hi; apply Hnd, in_or_app; auto).
        destruct (in_dec Z.eq_dec (cf_p c) done) as [Hi|_]; [contradiction|]. rewrite app_nil_r in Hu1.
        assert (Ecur : x_cur x = s) by (pose proof (cf_cur _ _ _ _ _ _ _ _ Hx) as E; rewrite Hgd in E by lia; congruence).
        pose proof (tc_head u1 x t h (cf_q c) (cf_p c) n (cf_time _ _ _ _ _ _ _ _ Hx) Hu1) as Hcall. rewrite Ecur, Ee, Em in Hcall. rewrite Hcall.
        + eexists. eexists. split; [reflexivity|]. split; [|split].
          * rewrite dkeys_dset. assert (E : dmem curr (cf_p c) = false) by (apply dmem_false; unfold dkeys in *; rewrite Hk; assumption). rewrite E, Hk. reflexivity.
          * intros k Hin. rewrite dget_dset. destruct (eqd k (cf_p c)) as [->|Hkv].
            -- rewrite Etape, nth_error_upd_nth. destruct (Nat.eq_dec (Z.to_nat (cf_p c)) (Z.to_nat (cf_p c))); [|congruence]. rewrite Es. reflexivity.
            -- apply in_app_or in Hin. destruct Hin as [Hin|[Hin|[]]]; [auto|congruence].
          * cbn [tc_history]. destruct (in_dec Z.eq_dec (cf_p c) (done ++ [cf_p c])) as [_|Hi]; [|exfalso; apply Hi, in_or_app; right; left; reflexivity].
            rewrite <- Ec'. unfold head. cbn [cf_q cf_p]. rewrite Hl. reflexivity.
        + replace (t - 1) with (Z.of_nat (Z.to_nat (t - 1))) by lia. unfold py_nth. rewrite py_index_at by lia. rewrite Nat2Z.id. assumption.
        + apply (cf_label _ _ _ _ _ _ _ _ Hx).
        + apply Hnb; [assumption|]. apply (cf_nbrs _ _ _ _ _ _ _ _ Hx).
      - exists st. split; [assumption|]. split; [assumption|]. split; [assumption|].
        assert (Hin : In (cf_p c) (nodes net)) by (apply Hnodes; unfold good in Hg; lia). destruct (in_dec Z.eq_dec (cf_p c) (nodes net)); [|contradiction]. split; [assumption|].
        split; [rewrite Hk; assumption|]. split; [intros k; rewrite Hk, Hnodes, Hl', Hl; tauto|]. intros k Hkr. apply Hd, Hnodes. lia.
    Qed.

    Lemma tape_sweep_err (g : args) (mk : memokey) (tab : list (mk_K mk * S)) t u d past h c :
      g_memo g = false -> g_pert g = None -> 1 <= t -> no_negative ->
      tc_history u = h -> length h = Z.to_nat t -> nth_error h (Z.to_nat (t - 1)) = Some (head c) -> shows d (cf_tape c) -> Z.of_nat (length (cf_tape c)) = n -> good c ->
      next table c = None ->
      do_activity_rule W g mk (tc_rule table) t (InStr "__timestep__") u d tab net past (Some (get_neighbourhood_map net)) = Err (failure c).
    Proof.
      intros Hm Hp Ht Hneg Hu Hlh Hh Hs Hl Hg En. destruct tape_net as (Hnd & Hnodes & Hclosed & Hnb & Hlen).
      assert (Hin : In (cf_p c) (nodes net)) by (apply Hnodes; unfold good in Hg; lia). destruct (in_split _ _ Hin) as (done0 & rest0 & Enodes0).
      apply (sweep_err W g mk (tc_rule table) t d net past tab u (J h (cf_p c) [] (cf_tape c)) done0 (cf_p c) rest0 _ Hm Hp Hclosed (shows_covers _ _ Hl Hs) Enodes0).
      - split; [reflexivity|]. split; [intros v []|]. destruct (in_dec Z.eq_dec (cf_p c) []) as [[]|]. rewrite app_nil_r. assumption.
      - intros done v rest u1 curr x Ed HJ Hx. rewrite Enodes0, Ed, <- app_assoc in Hnd. cbn [app] in Hnd.
        assert (Hv : 0 <= v < n) by (apply Hnodes; rewrite Enodes0, Ed; apply in_or_app; left; apply in_or_app; right; left; reflexivity).
        eapply (J_other h (cf_p c) (cf_q c) [] (cf_tape c) (cf_tape c) d past t done v (rest ++ cf_p c :: rest0)); try eassumption; [reflexivity|].
        intros ->. apply NoDup_remove_2 in Hnd. apply Hnd. apply in_or_app. right. apply in_or_app. right. left. reflexivity.
      - intros u1 curr x (Hk & Hd & Hu1) Hx. destruct Hs as (_ & _ & Hgd).
        assert (Hw : (if in_dec Z.eq_dec (cf_p c) done0 then [] else []) = @nil (Q * Z)) by (destruct (in_dec Z.eq_dec (cf_p c) done0); reflexivity). rewrite Hw, app_nil_r in Hu1.
        pose proof (tc_head u1 x t h (cf_q c) (cf_p c) n (cf_time _ _ _ _ _ _ _ _ Hx) Hu1) as Hcall.
        assert (E1 : py_nth h (t - 1) = Some (cf_q c, cf_p c)) by (replace (t - 1) with (Z.of_nat (Z.to_nat (t - 1))) by lia; unfold py_nth; rewrite py_index_at by lia; rewrite Nat2Z.id; assumption).
        assert (Hpr : 0 <= cf_p c < n) by (unfold good in Hg; lia).
        specialize (Hcall E1 (cf_label _ _ _ _ _ _ _ _ Hx) (Hnb _ _ Hpr (cf_nbrs _ _ _ _ _ _ _ _ Hx))).
        unfold next in En. unfold failure. pose proof (cf_cur _ _ _ _ _ _ _ _ Hx) as Ecur. rewrite Hgd in Ecur by lia. rewrite Ecur in *.
        destruct (entry table (cf_q c) (x_cur x)) as [[[q' s'] dr]|] eqn:Ee; [|assumption].
        destruct (move dr) as [m|]; [discriminate|]. apply Hcall. eapply Hneg. exact Ee.
    Qed.

    Definition Inv (cs : list conf) (hist : list (dict Z S)) (u : tape_centric Q) : Prop :=
      (length hist <= length cs)%nat /\ tc_history u = map head (firstn (length hist) cs) /\
      Forall2 (fun d c => shows d (cf_tape c)) hist (firstn (length hist) cs).

    Lemma run_good c cs : run_from table c cs -> good c -> forall k a, nth_error cs k = Some a -> good a /\ length (cf_tape a) = length (cf_tape c).
    Proof.
      intros [Hz Hnx] Hg. induction k as [|k IH]; intros a E; [assert (a = c) by congruence; subst; auto|].
      destruct (nth_error cs k) as [b|] eqn:Eb; [|apply nth_error_None in Eb; assert (Datatypes.S k < length cs)%nat by (apply nth_error_Some; congruence); lia].
      destruct (IH b eq_refl) as [Hgb Hlb]. assert (E2 : next table b = Some a) by (apply (Hnx k); [assumption|replace (k + 1)%nat with (Datatypes.S k) by lia; assumption]).
      destruct (next_good table b a Hgb E2). split; [assumption|congruence].
    Qed.

    Lemma Inv_last cs hist d u : Inv cs (hist ++ [d]) u -> exists c, nth_error cs (length hist) = Some c /\ shows d (cf_tape c) /\
      nth_error (tc_history u) (length hist) = Some (head c) /\ length (tc_history u) = (length hist + 1)%nat.
    Proof.
      intros (Hle & Hh & Hf). rewrite app_length in *. cbn [length] in *. destruct (nth_error cs (length hist)) as [c|] eqn:Ec; [|apply nth_error_None in Ec; lia].
      exists c. split; [reflexivity|]. assert (Ef : nth_error (firstn (length hist + 1) cs) (length hist) = Some c) by (rewrite nth_error_firstn_lt by lia; assumption).
      split; [apply (Forall2_at _ _ _ (length hist) _ _ Hf); [rewrite nth_error_app2, Nat.sub_diag by lia; reflexivity|assumption]|].
      rewrite Hh. split; [rewrite nth_error_map, Ef; reflexivity|]. rewrite map_length, firstn_length. lia.
    Qed.

    Lemma Inv_step (g : args) cs c0 : run_from table c0 cs -> good c0 -> Z.of_nat (length (cf_tape c0)) = n ->
      g_memo g = false -> g_pert g = None ->
      forall (mk : memokey) (tab : list (mk_K mk * S)) hist d u, Inv cs (hist ++ [d]) u -> (length hist + 1 < length cs)%nat ->
      exists s, do_activity_rule W g mk (tc_rule table) (Z.of_nat (length hist) + 1) (InStr "__timestep__") u d tab net (past_of W (g_past g) (hist ++ [d])) (Some (get_neighbourhood_map net)) = Ok s /\
        s_added s = [] /\ s_removed s = [] /\ Inv cs ((hist ++ [d]) ++ [s_curr s]) (s_u s).
    Proof.
      intros Hrun Hg0 Hl0 Hm Hp mk tab hist d u Hi Hlt. destruct (Inv_last _ _ _ _ Hi) as (c & Ec & Hs & Hh & Hlh).
      destruct (run_good c0 cs Hrun Hg0 _ _ Ec) as [Hg Hl]. destruct (nth_error cs (length hist + 1)) as [c'|] eqn:Ec'; [|apply nth_error_None in Ec'; lia].
      assert (En : next table c = Some c') by (destruct Hrun as [_ Hnx]; apply (Hnx (length hist)); assumption).
      destruct (tape_sweep g mk tab (Z.of_nat (length hist) + 1) u d (past_of W (g_past g) (hist ++ [d])) (tc_history u) c c' Hm Hp ltac:(lia) eq_refl ltac:(lia)
        ltac:(replace (Z.to_nat (Z.of_nat (length hist) + 1 - 1)) with (length hist) by lia; assumption) Hs ltac:(lia) Hg En) as (s & Es & Ha & Hr & Hh' & Hs').
      exists s. split; [assumption|]. split; [assumption|]. split; [assumption|]. destruct Hi as (Hle & Hhu & Hf). rewrite app_length in Hhu, Hf. cbn [length] in Hhu, Hf.
      unfold Inv. rewrite !app_length. cbn [length]. split; [lia|]. replace (length hist + 1 + 1)%nat with (Datatypes.S (length hist + 1)) by lia.
      rewrite (firstn_snoc cs (length hist + 1) c' Ec'). split; [rewrite Hh', Hhu, map_app; reflexivity|]. apply Forall2_app; [assumption|constructor; [assumption|constructor]].
    Qed.

    Lemma shows_len d tape : shows d tape -> length d = length tape.
    Proof.
      intros (Hnd & Hk & _). rewrite <- (map_length fst). change (map fst d) with (dkeys d).
      assert (Hp : Permutation (dkeys d) (zrange 0 (Z.of_nat (length tape)))) by (apply NoDup_Permutation; [assumption|apply NoDup_zrange|]; intros v; rewrite Hk, in_zrange; tauto).
      rewrite (Permutation_length Hp), length_zrange. lia.
    Qed.

    Theorem tape_run fuel q0 p0 tape c T (g : args) cs : static g (tc_rule table) -> 0 <= p0 < n -> Z.of_nat (length tape) = n -> shows (to_dict W c) tape ->
      (Z.to_nat T <= fuel)%nat -> run_from table (mkConf q0 p0 tape) cs -> Z.of_nat (length cs) = T ->
      exists m traj ds, evolve W fuel (tc_init q0 p0) net (Some c) (Some T) None g = Ok (m, traj) /\ tc_history m = map head cs /\
        Forall2 (fun s d => activities W s = Ok (shown_acts d)) traj ds /\ Forall2 (fun d c => shows d (cf_tape c)) ds cs.
    Proof.
      intros Hst Hp0 Hl Hs Hfuel Hrun HT. pose proof Hst as (_ & _ & Hp & Hm & _ & _). destruct tape_net as (_ & _ & _ & _ & Hlen).
      assert (Hg0 : good (mkConf q0 p0 tape)) by (unfold good; cbn; lia). pose proof Hrun as [Hz _].
      assert (HT1 : 1 <= T) by (destruct cs; [discriminate|cbn [length] in HT; lia]).
      destruct (static_run W fuel (tc_init q0 p0) net c T g (tc_rule table) (Inv cs) Hst HT1 Hfuel) as (m & traj & ds & E & Hld & Hf & Hle & Hh & Hds).
      - rewrite (shows_len _ _ Hs). lia.
      - destruct cs as [|c1 cs]; [discriminate|]. injection Hz as ->. split; [cbn; lia|]. split; [reflexivity|]. constructor; [assumption|constructor].
      - intros mk tab hist d u Hi Hlt. apply (Inv_step g cs _ Hrun Hg0 Hl Hm Hp mk tab hist d u Hi). lia.
      - rewrite firstn_all2 in Hh, Hds by lia. eauto 10.
    Qed.

    Theorem tape_stuck fuel q0 p0 tape c T (g : args) cs a : static g (tc_rule table) -> 0 <= p0 < n -> Z.of_nat (length tape) = n -> shows (to_dict W c) tape ->
      no_negative -> (Z.to_nat T <= fuel)%nat -> run_from table (mkConf q0 p0 tape) cs -> Z.of_nat (length cs) < T ->
      nth_error cs (length cs - 1) = Some a -> next table a = None ->
      evolve W fuel (tc_init q0 p0) net (Some c) (Some T) None g = Err (failure a).
    Proof.
      intros Hst Hp0 Hl Hs Hneg Hfuel Hrun HT Ea Ena. pose proof Hst as (_ & _ & Hp & Hm & _ & _). destruct tape_net as (_ & _ & _ & _ & Hlen).
      assert (Hg0 : good (mkConf q0 p0 tape)) by (unfold good; cbn; lia). pose proof Hrun as [Hz _].
      assert (HT1 : (1 <= length cs)%nat) by (destruct cs; [discriminate|cbn [length]; lia]).
      apply (static_fail W fuel (tc_init q0 p0) net c T g (tc_rule table) (Inv cs) (Z.of_nat (length cs)) (failure a) Hst ltac:(lia) Hfuel).
      - rewrite (shows_len _ _ Hs). lia.
      - destruct cs as [|c1 cs']; [discriminate|]. injection Hz as ->. split; [cbn; lia|]. split; [reflexivity|]. constructor; [assumption|constructor].
      - intros mk tab hist d u Hi Hlt. apply (Inv_step g cs _ Hrun Hg0 Hl Hm Hp mk tab hist d u Hi). lia.
      - intros mk tab hist d u Hi Hlt. destruct (Inv_last _ _ _ _ Hi) as (c1 & Ec & Hs1 & Hh & Hlh). assert (c1 = a) by (replace (length hist) with (length cs - 1)%nat in Ec by lia; congruence). subst c1.
        destruct (run_good _ cs Hrun Hg0 _ _ Ea) as [Hga Hla]. cbn [cf_tape] in Hla.
        apply (tape_sweep_err g mk tab (Z.of_nat (length cs)) u d _ (tc_history u) a Hm Hp ltac:(lia) Hneg eq_refl ltac:(lia)); try assumption; [|lia].
        replace (Z.to_nat (Z.of_nat (length cs) - 1)) with (length hist) by lia. assumption.
    Qed.
  End Run.

  Lemma shows_list tape : (forall i, e_lab W i = Z.of_nat i) -> shows (to_dict W (CList tape)) tape.
  Proof.
    intros Hl. assert (Hg : forall k (l : list S), let d := map (fun iv => (e_lab W (fst iv), snd iv)) (combine (seq k (length l)) l) in
      dkeys d = map Z.of_nat (seq k (length l)) /\ forall i, dget d (Z.of_nat (k + i)) = nth_error l i).
    { intros k l. revert k. induction l as [|x l IH]; intros k; cbn [length seq combine map]; [split; [reflexivity|intros [|i]; reflexivity]|].
      destruct (IH (Datatypes.S k)) as [IH1 IH2]. cbv zeta in *. split; [cbn [dkeys map fst]; rewrite Hl; f_equal; exact IH1|]. cbn [fst snd]. intros i. rewrite Hl. cbn [dget].
      destruct i as [|i]; [rewrite Nat.add_0_r; destruct (eqd (Z.of_nat k) (Z.of_nat k)); [reflexivity|congruence]|].
      destruct (eqd (Z.of_nat (k + Datatypes.S i)) (Z.of_nat k)); [lia|]. replace (k + Datatypes.S i)%nat with (Datatypes.S k + i)%nat by lia. apply IH2. }
    destruct (Hg 0%nat tape) as [Hk Hd]. cbv zeta in *. unfold shows, to_dict, enumerate. rewrite Hk. split; [|split].
    - apply FinFun.Injective_map_NoDup; [intros a b; lia|apply seq_NoDup].
    - intros k. rewrite in_map_iff. split; [intros (i & <- & Hi); apply in_seq in Hi; lia|]. intros Hr. exists (Z.to_nat k). split; [lia|]. apply in_seq. lia.
    - intros k Hr. rewrite <- (Hd (Z.to_nat k)). f_equal. lia.
  Qed.
End Tape.

(** ** Annotations *)
Lemma annotate_ok cols : forall heads : list (string * Z), Forall (fun h => 0 <= snd h < Z.of_nat cols) heads ->
  annotate (length heads) cols heads =
  Ok (map (fun h => map (fun j => if j =? snd h then Some (fst h) else None) (zrange 0 (Z.of_nat cols))) heads).
Proof.
  intros heads Hf. unfold annotate, enumerate. set (row := fun h : string * Z => map (fun j => if j =? snd h then Some (fst h) else None) (zrange 0 (Z.of_nat cols))).
  assert (Hg : forall l done, Forall (fun h => 0 <= snd h < Z.of_nat cols) l ->
    rfold (fun M ih => let '(i, (s, p)) := ih in row <- of_opt IndexError (nth_error M i) ;; row' <- of_opt IndexError (py_set_nth row p (fun _ => Some s)) ;; Ok (upd_nth M i (fun _ => row')))
      (combine (seq (length done) (length l)) l) (map row done ++ repeat (repeat None cols) (length l)) = Ok (map row (done ++ l))).
  { induction l as [|[s p] l IH]; intros done Hl; [cbn; rewrite !app_nil_r; reflexivity|]. inversion Hl as [|h l' Hp Hl' Eh]. subst. cbn [length seq combine rfold repeat].
    rewrite nth_error_app2 by (rewrite map_length; lia). rewrite map_length, Nat.sub_diag. cbn [nth_error of_opt rbind]. cbn [snd] in Hp.
    unfold py_set_nth. rewrite py_index_at by (rewrite repeat_length; assumption). cbn [of_opt rbind].
    assert (E : upd_nth (repeat None cols) (Z.to_nat p) (fun _ => Some s) = row (s, p)).
    { apply nth_error_ext. intros i. rewrite nth_error_upd_nth. unfold row. cbn [fst snd]. rewrite nth_error_map.
      destruct (Nat.lt_ge_cases i cols).
      - rewrite nth_error_zrange by lia. assert (Er : nth_error (repeat (@None string) cols) i = Some None).
        { destruct (nth_error (repeat (@None string) cols) i) as [y|] eqn:Ey; [apply nth_error_In, repeat_spec in Ey; congruence|apply nth_error_None in Ey; rewrite repeat_length in Ey; lia]. }
        rewrite Er. cbn [option_map]. destruct (Nat.eq_dec i (Z.to_nat p)), (Z.eqb_spec (0 + Z.of_nat i) p); try lia; reflexivity.
      - rewrite (proj2 (nth_error_None (repeat None cols) i)) by (rewrite repeat_length; lia). rewrite (proj2 (nth_error_None (zrange 0 (Z.of_nat cols)) i)) by (rewrite length_zrange; lia).
        destruct (Nat.eq_dec i (Z.to_nat p)); reflexivity. }
    rewrite E. replace (upd_nth (map row done ++ repeat None cols :: repeat (repeat None cols) (length l)) (length done) (fun _ => row (s, p)))
      with (map row (done ++ [(s, p)]) ++ repeat (repeat None cols) (length l)).
    2: { rewrite (upd_nth_split _ _ (fun _ => row (s, p)) (repeat None cols)) by (rewrite nth_error_app2 by (rewrite map_length; lia); rewrite map_length, Nat.sub_diag; reflexivity).
         rewrite firstn_app, skipn_app, map_length, Nat.sub_diag. cbn [firstn]. rewrite app_nil_r, firstn_all2 by (rewrite map_length; lia).
         rewrite skipn_all2 by (rewrite map_length; lia). replace (length done + 1 - length done)%nat with 1%nat by lia. cbn [skipn app]. rewrite map_app, <- app_assoc. reflexivity. }
    replace (Datatypes.S (length done)) with (length (done ++ [(s, p)])) by (rewrite app_length; cbn; lia).
    rewrite IH by assumption. rewrite <- app_assoc. reflexivity. }
  specialize (Hg heads [] Hf). cbn [length map app] in Hg. exact Hg.
Qed.
