(** The rewriting step of Wolfram.v: matching, scanning, emitting. *)
From Coq Require Import Permutation.
From Verif Require Import Py PyFacts ListFacts EvolveProofs WolframSpec Wolfram WolframProofs.
Open Scope Z_scope.

Section Rewriting.
  Context {S : Type} `{EqD S}.
  Notation bindings := (dict S Z).
  Implicit Types (b : bindings) (rule : list S).

  Definition extends b b' : Prop := forall s n, dget b s = Some n -> dget b' s = Some n.
  Lemma extends_refl b : extends b b. Proof. intros s n E. exact E. Qed.
  Lemma extends_trans b1 b2 b3 : extends b1 b2 -> extends b2 b3 -> extends b1 b3. Proof. intros H1 H2 s n E. auto. Qed.
  Lemma instance_mono (f g : S -> option Z) rule rel : (forall s n, f s = Some n -> g s = Some n) -> instance f rule rel -> instance g rule rel.
  Proof.
    intros Hfg. unfold instance. revert rel. induction rule as [|s rule IH]; intros [|v rel] E; try discriminate; [reflexivity|]. cbn in *. injection E as E1 E2. rewrite (Hfg _ _ E1), (IH _ E2). reflexivity.
  Qed.

  Lemma dget_fold_ddel added b s : dget (fold_left ddel added b) s = if in_dec eqd s added then None else dget b s.
  Proof.
    revert b. induction added as [|a added IH]; intros b; [reflexivity|]. cbn [fold_left]. rewrite IH, dget_ddel. destruct (in_dec eqd s added) as [Hi|Hi], (in_dec eqd s (a :: added)) as [Hj|Hj]; try reflexivity.
    - exfalso. apply Hj. right. assumption.
    - destruct Hj as [->|Hj]; [|contradiction]. destruct (eqd s s); congruence.
    - destruct (eqd s a) as [->|]; [exfalso; apply Hj; left; reflexivity|reflexivity].
  Qed.

  Lemma match_symbols_spec : forall rule rel b0 b added, length rule = length rel ->
    (forall s, dget b0 s = if in_dec eqd s added then None else dget b s) ->
    match match_symbols rule rel b added with
    | (true, b') => extends b b' /\ instance (dget b') rule rel /\ (forall s, dget b' s <> None <-> dget b s <> None \/ In s rule)
    | (false, b') => (forall s, dget b' s = dget b0 s) /\ (forall f, (forall s n, dget b s = Some n -> f s = Some n) -> ~ instance f rule rel)
    end.
  Proof.
    induction rule as [|s rule IH]; intros [|v rel] b0 b added Hl Hb; try discriminate.
    - cbn. split; [apply extends_refl|]. split; [reflexivity|]. intros s. tauto.
    - cbn [match_symbols]. injection Hl as Hl. destruct (dget b s) as [w|] eqn:Es.
      + destruct (Z.eqb_spec v w) as [->|Hne]; cbn [negb].
        * specialize (IH rel b0 b added Hl Hb). destruct (match_symbols rule rel b added) as [[|] b'].
          -- destruct IH as (H1 & H2 & H3). split; [assumption|]. split; [unfold instance; cbn; rewrite (H1 _ _ Es), H2; reflexivity|]. intros s'. rewrite H3. cbn. split; [tauto|]. intros [|[<-|]]; auto. left. congruence.
          -- destruct IH as (H1 & H2). split; [assumption|]. intros f Hf Hi. apply (H2 f Hf). unfold instance in *. cbn in Hi. injection Hi as _ Hi. assumption.
        * split; [intros s'; rewrite dget_fold_ddel; symmetry; apply Hb|]. intros f Hf Hi. unfold instance in Hi. cbn in Hi. injection Hi as Hi _. rewrite (Hf _ _ Es) in Hi. congruence.
      + specialize (IH rel b0 (dset b s v) (added ++ [s]) Hl).
        assert (Hb' : forall s', dget b0 s' = if in_dec eqd s' (added ++ [s]) then None else dget (dset b s v) s').
        { intros s'. rewrite Hb. destruct (in_dec eqd s' added) as [Hi|Hi], (in_dec eqd s' (added ++ [s])) as [Hj|Hj]; try reflexivity.
          - exfalso. apply Hj, in_or_app. auto.
          - apply in_app_iff in Hj. destruct Hj as [|[<-|[]]]; [contradiction|assumption].
          - symmetry. apply dget_dset_ne. intros ->. apply Hj, in_or_app. right. left. reflexivity. }
        specialize (IH Hb'). destruct (match_symbols rule rel (dset b s v) (added ++ [s])) as [[|] b'].
        * destruct IH as (H1 & H2 & H3). split; [|split].
          -- intros s' n E. apply H1. rewrite dget_dset_ne; [assumption|]. intros ->. congruence.
          -- unfold instance. cbn. rewrite (H1 s v) by apply dget_dset_eq. rewrite H2. reflexivity.
          -- intros s'. rewrite H3. rewrite dget_dset. cbn. destruct (eqd s' s) as [->|Hne]; split; try tauto; try (intros _; left; discriminate).
             intros [|[<-|]]; auto.
        * destruct IH as (H1 & H2). split; [assumption|]. intros f Hf Hi. pose proof Hi as Hi0. unfold instance in Hi. cbn in Hi. injection Hi as Hs Hi. apply (H2 f); [|exact Hi].
          intros s' n. rewrite dget_dset. destruct (eqd s' s) as [->|]; [intros E; congruence|apply Hf].
  Qed.

  (** a relation matches exactly when the bindings can be extended so that it is an instance; on failure they are unchanged *)
  Lemma matches_spec rule rel b :
    match matches rule rel b with
    | (true, b') => extends b b' /\ instance (dget b') rule rel /\ (forall s, dget b' s <> None <-> dget b s <> None \/ In s rule)
    | (false, b') => (forall s, dget b' s = dget b s) /\ (forall f, (forall s n, dget b s = Some n -> f s = Some n) -> ~ instance f rule rel)
    end.
  Proof.
    unfold matches. destruct (Nat.eqb_spec (length rule) (length rel)) as [Hl|Hl]; cbn [negb].
    - apply match_symbols_spec; [assumption|]. intros s. reflexivity.
    - split; [reflexivity|]. intros f _ Hi. apply Hl. unfold instance in Hi. apply (f_equal (@length _)) in Hi. rewrite !map_length in Hi. assumption.
  Qed.

  Lemma find_relation_spec rule : forall rels b,
    match find_relation rule b rels with
    | (Some r, b') => In r rels /\ extends b b' /\ instance (dget b') rule r /\ (forall s, dget b' s <> None <-> dget b s <> None \/ In s rule)
    | (None, b') => (forall s, dget b' s = dget b s) /\ (forall r f, In r rels -> (forall s n, dget b s = Some n -> f s = Some n) -> ~ instance f rule r)
    end.
  Proof.
    induction rels as [|r rels IH]; intros b; [cbn; split; [reflexivity|intros r f []]|]. cbn [find_relation]. pose proof (matches_spec rule r b) as Hm. destruct (matches rule r b) as [[|] b'].
    - split; [left; reflexivity|assumption].
    - destruct Hm as [H1 H2]. specialize (IH b'). destruct (find_relation rule b' rels) as [[r'|] b''].
      + destruct IH as (G1 & G2 & G3 & G4). split; [right; assumption|]. split; [intros s n E; apply G2; rewrite H1; assumption|]. split; [assumption|]. intros s. rewrite G4, H1. reflexivity.
      + destruct IH as (G1 & G2). split; [intros s; rewrite G1; apply H1|]. intros r' f [<-|Hin] Hf; [apply H2; assumption|]. apply G2; [assumption|]. intros s n E. apply Hf. rewrite <- H1. assumption.
  Qed.

  Lemma remove_first_perm (r : relation) rels : In r rels -> Permutation rels (r :: remove_first r rels).
  Proof.
    induction rels as [|x rels IH]; [intros []|]. intros Hin. cbn. destruct (eqb r x) eqn:E; [apply eqb_eq in E; subst; reflexivity|]. apply eqb_neq in E. destruct Hin as [->|Hin]; [congruence|].
    rewrite (IH Hin) at 1. apply perm_swap.
  Qed.

  (** ** one scan *)
  Definition good_match (rules_in : list (list S)) (mb : config * bindings) : Prop :=
    Forall2 (instance (dget (snd mb))) rules_in (fst mb) /\ (forall s, dget (snd mb) s <> None <-> In s (concat rules_in)).

  Definition scan_inv (rules_in done : list (list S)) (rels0 : config) (matched0 : list (config * bindings)) (st : scan) : Prop :=
    (sc_matched st = matched0 /\ Permutation rels0 (sc_partial st ++ sc_rels st) /\
      exists sub, Forall2 (instance (dget (sc_b st))) sub (sc_partial st) /\ (length sub <= length done)%nat /\ (length sub = length done -> sub = done) /\ (forall s, dget (sc_b st) s <> None <-> In s (concat sub)))
    \/ (done = rules_in /\ sc_partial st = [] /\ exists part, sc_matched st = matched0 ++ [(part, sc_b st)] /\ good_match rules_in (part, sc_b st) /\ Permutation rels0 (part ++ sc_rels st)).

  Lemma Forall2_len {X Y} (P : X -> Y -> Prop) l l' : Forall2 P l l' -> length l = length l'.
  Proof. induction 1; cbn; congruence. Qed.

  Lemma scan_rule_inv rules_in done rule todo rels0 matched0 st : rules_in = done ++ rule :: todo ->
    scan_inv rules_in done rels0 matched0 st -> scan_inv rules_in (done ++ [rule]) rels0 matched0 (scan_rule (length rules_in) st rule) /\
    (sc_go (scan_rule (length rules_in) st rule) = true -> (length (sc_rels (scan_rule (length rules_in) st rule)) < length (sc_rels st))%nat) /\
    (length (sc_rels (scan_rule (length rules_in) st rule)) <= length (sc_rels st))%nat.
  Proof.
    intros Er Hinv. destruct Hinv as [(Em & Hp & sub & Hf & Hle & Heq & Hk)|(Ed & _)].
    2:{ exfalso. apply (f_equal (@length _)) in Er. rewrite app_length in Er. cbn in Er. rewrite <- Ed in Er. lia. }
    unfold scan_rule. pose proof (find_relation_spec rule (sc_rels st) (sc_b st)) as Hfind. destruct (find_relation rule (sc_b st) (sc_rels st)) as [[r|] b'].
    - destruct Hfind as (Hin & Hext & Hi & Hk'). pose proof (remove_first_perm r (sc_rels st) Hin) as Hrem.
      assert (Hlen : (length (remove_first r (sc_rels st)) < length (sc_rels st))%nat) by (rewrite (Permutation_length Hrem); cbn; lia).
      assert (Hf' : Forall2 (instance (dget b')) (sub ++ [rule]) (sc_partial st ++ [r])).
      { apply Forall2_app; [|constructor; [assumption|constructor]]. eapply Forall2_impl; [|exact Hf]. intros p q Hpq. eapply instance_mono; [exact Hext|exact Hpq]. }
      assert (Hperm : Permutation rels0 ((sc_partial st ++ [r]) ++ remove_first r (sc_rels st))) by (rewrite <- app_assoc; cbn [app]; rewrite Hp; apply Permutation_app_head; assumption).
      assert (Hkk : forall s, dget b' s <> None <-> In s (concat (sub ++ [rule]))) by (intros s; rewrite Hk', Hk, concat_app, in_app_iff; cbn [concat]; rewrite app_nil_r; reflexivity).
      destruct (Nat.eqb_spec (length (sc_partial st ++ [r])) (length rules_in)) as [Hfull|Hnot]; cbn [sc_go sc_rels]; (split; [|split; [intros _; assumption|lia]]).
      + right. assert (Hlsub : length (sub ++ [rule]) = length rules_in) by (rewrite (Forall2_len _ _ _ Hf'); assumption).
        assert (Hdone : done ++ [rule] = rules_in).
        { rewrite Er. rewrite Er in Hlsub. rewrite !app_length in Hlsub. cbn [length] in Hlsub. destruct todo; [reflexivity|]. cbn [length] in Hlsub. lia. }
        assert (Hsub : sub = done) by (apply Heq; rewrite <- Hdone, !app_length in Hlsub; lia).
        split; [assumption|]. split; [reflexivity|]. exists (sc_partial st ++ [r]). cbn [sc_matched sc_b sc_rels]. rewrite Em. split; [reflexivity|]. split; [|assumption]. rewrite <- Hdone, <- Hsub. split; assumption.
      + left. cbn [sc_matched sc_partial sc_rels sc_b]. split; [assumption|]. split; [assumption|]. exists (sub ++ [rule]). split; [assumption|]. rewrite !app_length. split; [lia|]. split; [|assumption]. intros El. rewrite Heq; [reflexivity|lia].
    - destruct Hfind as (Hb' & _). 
      assert (Hf' : Forall2 (instance (dget b')) sub (sc_partial st)).
      { eapply Forall2_impl; [|exact Hf]. intros p q Hpq. eapply instance_mono; [|exact Hpq]. intros s n E. rewrite Hb'. assumption. }
      assert (Hlt : (length (sc_partial st) < length rules_in)%nat) by (rewrite <- (Forall2_len _ _ _ Hf'), Er, app_length; cbn; lia).
      destruct (Nat.eqb_spec (length (sc_partial st)) (length rules_in)) as [Hfull|Hnot]; [lia|]. cbn [sc_go sc_rels]. split; [|split; [discriminate|lia]].
      left. cbn [sc_matched sc_partial sc_rels sc_b]. split; [assumption|]. split; [assumption|]. exists sub. split; [assumption|]. rewrite app_length. cbn. split; [lia|]. split; [intros El; lia|]. intros s. rewrite Hb'. apply Hk.
  Qed.

  Lemma scan_inv_fold rules_in rels0 matched0 : forall todo done st, rules_in = done ++ todo -> scan_inv rules_in done rels0 matched0 st ->
    let st' := fold_left (scan_rule (length rules_in)) todo st in
    scan_inv rules_in rules_in rels0 matched0 st' /\ (length (sc_rels st') <= length (sc_rels st))%nat /\ (todo <> [] -> sc_go st' = true -> (length (sc_rels st') < length (sc_rels st))%nat).
  Proof.
    induction todo as [|rule todo IH]; intros done st Er Hinv; cbn [fold_left].
    - rewrite app_nil_r in Er. subst done. split; [assumption|]. split; [lia|]. congruence.
    - destruct (scan_rule_inv _ _ _ _ _ _ _ Er Hinv) as (Hinv' & Hlt & Hle). set (st1 := scan_rule (length rules_in) st rule) in *.
      destruct (IH (done ++ [rule]) st1) as (H1 & H2 & H3); [rewrite <- app_assoc; assumption|assumption|]. cbn zeta in *. split; [assumption|]. split; [lia|]. intros _ Hgo. destruct todo as [|r2 todo]; [apply Hlt; assumption|]. assert (Hn2 : r2 :: todo <> []) by discriminate. specialize (H3 Hn2 Hgo). lia.
  Qed.

  Lemma scan_once rules_in rels matched : let st := fold_left (scan_rule (length rules_in)) rules_in (mkScan rels [] matched [] true) in
    (exists gs, sc_matched st = matched ++ gs /\ Forall (good_match rules_in) gs /\ Permutation rels (concat (map fst gs) ++ sc_partial st ++ sc_rels st)) /\
    (rules_in <> [] -> sc_go st = true -> (length (sc_rels st) < length rels)%nat).
  Proof.
    intros st. destruct (scan_inv_fold rules_in rels matched rules_in [] (mkScan rels [] matched [] true) eq_refl) as (H1 & _ & H3).
    - left. cbn. split; [reflexivity|]. split; [reflexivity|]. exists []. split; [constructor|]. split; [cbn; lia|]. split; [reflexivity|]. intros s. cbn. tauto.
    - fold st in H1, H3. split; [|exact H3]. destruct H1 as [(Em & Hp & _)|(_ & Ep & part & Em & Hg & Hp)].
      + exists []. rewrite app_nil_r. split; [assumption|]. split; [constructor|]. assumption.
      + exists [(part, sc_b st)]. split; [assumption|]. split; [constructor; [assumption|constructor]|]. cbn [map concat fst]. rewrite Ep, app_nil_r. assumption.
  Qed.

  Lemma scan_loop_sound rules_in : forall fuel rels unmatched matched rels' unmatched' matched',
    scan_loop fuel rules_in rels unmatched matched = Ok (rels', unmatched', matched') ->
    exists gs, matched' = matched ++ gs /\ Forall (good_match rules_in) gs /\ Permutation (rels ++ unmatched) (concat (map fst gs) ++ rels' ++ unmatched').
  Proof.
    induction fuel as [|f IH]; intros rels un m rels' un' m' E; [discriminate|]. cbn [scan_loop] in E. destruct (scan_once rules_in rels m) as [(gs & Em & Hg & Hp) _]. set (st := fold_left _ rules_in _) in *.
    assert (Hp' : Permutation (rels ++ un) (concat (map fst gs) ++ sc_rels st ++ (un ++ sc_partial st))).
    { rewrite Hp, <- !app_assoc. apply Permutation_app_head. rewrite (Permutation_app_comm (sc_partial st) (sc_rels st ++ un)), <- app_assoc. reflexivity. }
    destruct (sc_go st).
    - apply IH in E. destruct E as (gs' & -> & Hg' & Hp2). exists (gs ++ gs'). rewrite Em, <- app_assoc. split; [reflexivity|]. split; [apply Forall_app; auto|]. rewrite map_app, concat_app, <- app_assoc. rewrite Hp'. apply Permutation_app_head. assumption.
    - injection E as <- <- <-. exists gs. auto.
  Qed.

  Lemma scan_loop_terminates rules_in : rules_in <> [] -> forall fuel rels unmatched matched, (length rels < fuel)%nat -> exists r, scan_loop fuel rules_in rels unmatched matched = Ok r.
  Proof.
    intros Hne. induction fuel as [|f IH]; intros rels un m Hf; [lia|]. cbn [scan_loop]. destruct (scan_once rules_in rels m) as [_ Hlt]. set (st := fold_left _ rules_in _) in *. specialize (Hlt Hne). destruct (sc_go st); [|eauto]. apply IH. specialize (Hlt eq_refl). lia.
  Qed.
  Lemma scan_loop_mono rules_in : forall fuel rels unmatched matched r, scan_loop fuel rules_in rels unmatched matched = Ok r -> forall fuel', (fuel <= fuel')%nat -> scan_loop fuel' rules_in rels unmatched matched = Ok r.
  Proof.
    induction fuel as [|f IH]; intros rels un m r E fuel' Hf; [discriminate|]. destruct fuel' as [|f']; [lia|]. cbn [scan_loop] in *. set (st := fold_left _ rules_in _) in *. destruct (sc_go st); [|assumption]. eapply IH; [exact E|lia].
  Qed.
  Lemma scan_loop_diverges : forall fuel rels unmatched matched, scan_loop fuel (@nil (list S)) rels unmatched matched = Err OutOfFuel.
  Proof. induction fuel as [|f IH]; intros; [reflexivity|]. cbn. apply IH. Qed.

  (** with one pattern on the left the scan is exhaustive *)
  Lemma scan_loop_single p : forall fuel rels unmatched matched rels' unmatched' matched',
    scan_loop fuel [p] rels unmatched matched = Ok (rels', unmatched', matched') -> unmatched' = unmatched /\ forall r f, In r rels' -> ~ instance f p r.
  Proof.
    induction fuel as [|f IH]; intros rels un m rels' un' m' E; [discriminate|]. cbn [scan_loop fold_left length scan_rule sc_b sc_rels sc_partial sc_matched] in E. unfold scan_rule in E. cbn [sc_b sc_rels sc_partial sc_matched] in E.
    pose proof (find_relation_spec p rels []) as Hfind. destruct (find_relation p [] rels) as [[r|] b']; cbn in E.
    - apply IH in E. rewrite app_nil_r in E. assumption.
    - injection E as <- <- <-. rewrite app_nil_r. split; [reflexivity|]. intros r g Hin. apply Hfind; [assumption|]. intros s n Hs. discriminate.
  Qed.

  (** ** emission *)
  Definition emitted (last : Z) b (last' : Z) b' (syms : list S) : Prop :=
    last <= last' /\ extends b b' /\ (forall s, dget b' s <> None <-> dget b s <> None \/ In s syms) /\
    (forall s n, dget b s = None -> dget b' s = Some n -> last < n <= last') /\
    (forall s s' n, dget b s = None -> dget b s' = None -> dget b' s = Some n -> dget b' s' = Some n -> s = s').

  Lemma emitted_refl last b : emitted last b last b [].
  Proof. split; [lia|]. split; [apply extends_refl|]. split; [intros s; cbn; tauto|]. split; [intros; congruence|]. intros. congruence. Qed.
  Lemma emitted_trans l0 b0 l1 b1 l2 b2 s1 s2 : emitted l0 b0 l1 b1 s1 -> emitted l1 b1 l2 b2 s2 -> emitted l0 b0 l2 b2 (s1 ++ s2).
  Proof.
    intros (A1 & A2 & A3 & A4 & A5) (B1 & B2 & B3 & B4 & B5).
    assert (Hcase : forall s n, dget b0 s = None -> dget b2 s = Some n -> (dget b1 s = Some n /\ l0 < n <= l1) \/ (dget b1 s = None /\ l1 < n <= l2)).
    { intros s n E0 E2. destruct (dget b1 s) as [m|] eqn:E1; [left; rewrite (B2 _ _ E1) in E2; injection E2 as ->; split; [reflexivity|eauto]|right; split; [reflexivity|eauto]]. }
    split; [lia|]. split; [eapply extends_trans; eassumption|]. split; [intros s; rewrite B3, A3, in_app_iff; tauto|]. split.
    - intros s n E0 E2. destruct (Hcase s n E0 E2) as [[_ ?]|[_ ?]]; lia.
    - intros s s' n E E' F F'. destruct (Hcase s n E F) as [[G ?]|[G ?]], (Hcase s' n E' F') as [[G' ?]|[G' ?]]; try lia; eauto.
  Qed.

  Lemma emit_symbols_spec : forall rule last b edge, exists last' b' r, fold_left emit_symbol rule (last, b, edge) = (last', b', edge ++ r) /\ emitted last b last' b' rule /\ instance (dget b') rule r.
  Proof.
    induction rule as [|s rule IH]; intros last b edge.
    - exists last, b, []. rewrite app_nil_r. split; [reflexivity|]. split; [apply emitted_refl|reflexivity].
    - cbn [fold_left emit_symbol]. destruct (dget b s) as [n|] eqn:Es.
      + destruct (IH last b (edge ++ [n])) as (l' & b' & r & E & He & Hi). exists l', b', (n :: r). split; [rewrite E, <- app_assoc; reflexivity|].
        split; [|unfold instance; cbn; destruct He as (_ & Hx & _); rewrite (Hx _ _ Es), Hi; reflexivity].
        change (s :: rule) with ([s] ++ rule). eapply emitted_trans; [|exact He]. destruct (emitted_refl last b) as (A1 & A2 & A3 & A4 & A5). split; [assumption|]. split; [assumption|]. split; [|split; assumption].
        intros s'. cbn. split; [tauto|]. intros [|[<-|[]]]; [assumption|congruence].
      + destruct (IH (last + 1) (dset b s (last + 1)) (edge ++ [last + 1])) as (l' & b' & r & E & He & Hi). exists l', b', ((last + 1) :: r). split; [rewrite E, <- app_assoc; reflexivity|].
        split; [|unfold instance; cbn; destruct He as (_ & Hx & _); rewrite (Hx s (last + 1)) by apply dget_dset_eq; rewrite Hi; reflexivity].
        change (s :: rule) with ([s] ++ rule). eapply emitted_trans; [|exact He]. split; [lia|]. split; [intros s' n E'; rewrite dget_dset_ne; [assumption|congruence]|]. split; [|split].
        * intros s'. rewrite dget_dset. destruct (eqd s' s) as [->|Hne]; [split; [intros _; right; left; reflexivity|discriminate]|]. cbn. split; [tauto|]. intros [|[->|[]]]; [assumption|congruence].
        * intros s' n E0 E1. rewrite dget_dset in E1. destruct (eqd s' s); [injection E1 as <-; lia|congruence].
        * intros s1 s2 n E1 E2 F1 F2. rewrite dget_dset in F1, F2. destruct (eqd s1 s), (eqd s2 s); congruence.
  Qed.

  Lemma emit_rules_spec : forall rules_out last b cfg, exists last' b' out, fold_left emit_rule rules_out (last, b, cfg) = (last', b', cfg ++ out) /\ emitted last b last' b' (concat rules_out) /\ Forall2 (instance (dget b')) rules_out out.
  Proof.
    induction rules_out as [|ro rules IH]; intros last b cfg.
    - exists last, b, []. rewrite app_nil_r. split; [reflexivity|]. split; [apply emitted_refl|constructor].
    - cbn [fold_left emit_rule concat]. destruct (emit_symbols_spec ro last b []) as (l1 & b1 & r & E1 & He1 & Hi1). rewrite E1. cbn [app].
      destruct (IH l1 b1 (cfg ++ [r])) as (l2 & b2 & out & E2 & He2 & Hi2). exists l2, b2, (r :: out). split; [rewrite E2, <- app_assoc; reflexivity|]. split; [eapply emitted_trans; eassumption|].
      constructor; [|assumption]. eapply instance_mono; [|exact Hi1]. apply He2.
  Qed.

  (** one group per match, each in its own interval of new numbers *)
  Lemma emit_groups_spec rules_in rules_out : forall gs last cfg, Forall (good_match rules_in) gs ->
    exists last' groups, fold_left (emit_group rules_out) gs (last, cfg) = (last', cfg ++ concat (map gr_rhs groups)) /\ map gr_lhs groups = map fst gs /\ last <= last' /\
      Forall (group_ok rules_in rules_out) groups /\
      (forall g s n, In g groups -> creates g s n -> last < n <= last') /\
      (forall i j g g' s s' n, nth_error groups i = Some g -> nth_error groups j = Some g' -> creates g s n -> creates g' s' n -> i = j /\ s = s').
  Proof.
    induction gs as [|[lhs b] gs IH]; intros last cfg Hg.
    - exists last, []. cbn. rewrite app_nil_r. repeat split; try lia; try constructor; try tauto; destruct i; discriminate.
    - inversion Hg as [|x y [Hf Hk] Hg']. subst. cbn [fold_left emit_group snd fst] in *. destruct (emit_rules_spec rules_out last b cfg) as (l1 & b1 & out & E1 & (A1 & A2 & A3 & A4 & A5) & Hi). rewrite E1.
      destruct (IH l1 (cfg ++ out) Hg') as (l2 & groups & E2 & El & Hle & Hok & Hfr & Hinj). set (g0 := mkGroup (dget b) (dget b1) lhs out). exists l2, (g0 :: groups).
      assert (H0 : forall s n, creates g0 s n -> last < n <= l1) by (intros s n [C1 C2]; eauto).
      split; [rewrite E2; cbn; rewrite <- app_assoc; reflexivity|]. split; [cbn; rewrite El; reflexivity|]. split; [lia|]. split; [|split].
      + constructor; [|assumption]. unfold group_ok, g0. cbn [gr_in gr_out gr_lhs gr_rhs]. split; [assumption|]. split; [intros s; rewrite A3, Hk; reflexivity|]. split; [assumption|]. split; assumption.
      + intros g s n [<-|Hin] Hc; [specialize (H0 s n Hc); lia|specialize (Hfr g s n Hin Hc); lia].
      + intros i j g g' s s' n Ei Ej Hc Hc'. destruct i as [|i], j as [|j]; cbn in Ei, Ej.
        * injection Ei as <-. injection Ej as <-. split; [reflexivity|]. destruct Hc as [C1 C2], Hc' as [C3 C4]. eapply A5; eassumption.
        * injection Ei as <-. specialize (H0 s n Hc). apply nth_error_In in Ej. specialize (Hfr g' s' n Ej Hc'). lia.
        * injection Ej as <-. specialize (H0 s' n Hc'). apply nth_error_In in Ei. specialize (Hfr g s n Ei Hc). lia.
        * destruct (Hinj i j g g' s s' n Ei Ej Hc Hc') as [-> ->]. auto.
  Qed.

  Theorem rewrite_sound fuel rules_in rules_out last old new : rewrite_config fuel rules_in rules_out last old = Ok new ->
    exists groups rest, rewrites rules_in rules_out groups rest old new /\
      (forall g s n, In g groups -> creates g s n -> last < n) /\
      (forall i j g g' s s' n, nth_error groups i = Some g -> nth_error groups j = Some g' -> creates g s n -> creates g' s' n -> i = j /\ s = s') /\
      (forall p, rules_in = [p] -> forall r f, In r rest -> ~ instance f p r).
  Proof.
    unfold rewrite_config. intros E. destruct (scan_loop fuel rules_in old [] []) as [[[rels un] m]|] eqn:Es; [|discriminate]. cbn [rbind] in E. injection E as <-.
    destruct (scan_loop_sound _ _ _ _ _ _ _ _ Es) as (gs & -> & Hg & Hp). cbn [app]. destruct (emit_groups_spec rules_in rules_out gs last (rels ++ un) Hg) as (l' & groups & E & El & Hle & Hok & Hfr & Hinj). rewrite E. cbn [snd].
    exists groups, (rels ++ un). rewrite app_nil_r in Hp. split; [|split; [intros g s n Hin Hc; specialize (Hfr g s n Hin Hc); lia|split; [assumption|]]].
    - split; [rewrite El; assumption|]. split; [apply Permutation_app_comm|assumption].
    - intros p -> r f Hin. destruct (scan_loop_single _ _ _ _ _ _ _ _ Es) as [-> Hs]. rewrite app_nil_r in Hin. apply Hs. assumption.
  Qed.
  Lemma rewrite_terminates fuel rules_in rules_out last old : rules_in <> [] -> (length old < fuel)%nat -> exists new, rewrite_config fuel rules_in rules_out last old = Ok new.
  Proof. intros Hne Hf. unfold rewrite_config. destruct (scan_loop_terminates rules_in Hne fuel old [] [] Hf) as [[[a b] c] ->]. cbn. eauto. Qed.
End Rewriting.
