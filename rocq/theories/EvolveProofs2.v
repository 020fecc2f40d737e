(** * Trajectory length, memoization, persistence, compression *)
From Verif Require Import Py PyFacts ListFacts Network Evolve EvolveSpec EvolveProofs.
Open Scope string_scope.
Open Scope list_scope.
Open Scope Z_scope.

(** two computations that both succeed with related values or both raise the same exception *)
Definition res_rel {X Y} (R : X -> Y -> Prop) (a : res X) (b : res Y) : Prop :=
  match a, b with Ok x, Ok y => R x y | Err e, Err e' => e = e' | _, _ => False end.

Lemma res_rel_bind {X Y X' Y'} (R : X -> Y -> Prop) (Q : X' -> Y' -> Prop) m m' f f' :
  res_rel R m m' -> (forall x y, R x y -> res_rel Q (f x) (f' y)) -> res_rel Q (rbind m f) (rbind m' f').
Proof. destruct m, m'; cbn; intros Hr Hf; try contradiction; [apply Hf; assumption|assumption]. Qed.

Lemma res_rel_eq {X} (m : res X) : res_rel eq m m.
Proof. destruct m; reflexivity. Qed.

Lemma res_rel_same {X Y Z'} (Q : X -> Y -> Prop) (m : res Z') f f' :
  (forall x, m = Ok x -> res_rel Q (f x) (f' x)) -> res_rel Q (rbind m f) (rbind m f').
Proof. destruct m; cbn; intros Hf; [apply Hf; reflexivity|reflexivity]. Qed.

Section Proofs2.
  Context {L V A U I BA BN : Type} `{EqD L} `{EqD A}.
  Context (W : env L V A BA BN).

  Notation network := (network L V).
  Notation attrs := (dict string V).
  Notation acts := (dict L A).
  Notation ctx := (node_ctx L V A I).
  Notation args := (@args L V A U I).
  Notation state := (state L V A BA BN).
  Notation input_fn := (@input_fn L V A U I).
  Notation memokey := (@memokey L V A I).
  Notation config mk := (@cfg L V A U I BA BN mk).

  (** ** C15: length *)

  (** the input function continues before time [T] and stops at [T] *)
  Definition ends_at (infn : input_fn) (T : Z) : Prop :=
    (forall u t a n u' r, 1 <= t < T -> infn u t a n = Ok (u', r) -> r <> None) /\
    (forall u a n u' r, infn u T a n = Ok (u', r) -> r = None).

  Lemma loop_fuel g mk infn T : ends_at infn T -> forall k t (c : config mk), 1 <= t -> t + Z.of_nat k = T ->
    forall fuel, (S k <= fuel)%nat -> loop W g mk infn fuel t c = loop W g mk infn (S k) t c.
  Proof.
    intros [H1 H2]. induction k as [|k IH]; intros t c Ht HT fuel Hf; (destruct fuel as [|fuel]; [lia|]); cbn [loop].
    - destruct (infn (c_u c) t (c_act c) (c_net c)) as [[u r]|e] eqn:Ei; [|reflexivity]. cbn [rbind].
      replace T with t in H2 by lia. rewrite (H2 _ _ _ _ _ Ei). reflexivity.
    - destruct (infn (c_u c) t (c_act c) (c_net c)) as [[u [i|]]|e]; cbn [rbind]; try reflexivity.
      destruct (step W g mk t i (with_u c u)) as [c1|]; cbn [rbind]; [|reflexivity]. apply (IH (t + 1) c1); lia.
  Qed.

  Lemma evolve_fuel fuel u0 n initial ts inp (g : args) infn T :
    get_input_function ts inp = Ok infn -> ends_at infn T -> 1 <= T -> (Z.to_nat T <= fuel)%nat ->
    evolve W fuel u0 n initial ts inp g = evolve W (Z.to_nat T) u0 n initial ts inp g.
  Proof.
    intros Hi He HT Hf. unfold evolve. rewrite Hi. cbn [rbind].
    match goal with |- context[if ?b then _ else _] => destruct b end; [reflexivity|].
    destruct (set_activities _ _ _); cbn [rbind]; [|reflexivity]. destruct (set_network _ _ _); cbn [rbind]; [|reflexivity].
    destruct (Z.to_nat T) as [|k] eqn:EK; [lia|].
    rewrite (loop_fuel g _ infn T He k 1) by lia. reflexivity.
  Qed.

  Lemma run_calls g mk infn t (c : config mk) cs : Run W g mk infn t c cs -> forall k, (k < length cs)%nat ->
    exists u a n u' i, infn u (t + Z.of_nat k) a n = Ok (u', Some i).
  Proof.
    intros Hr k Hk. destruct (nth_error (c :: cs) k) as [a|] eqn:Ea; [|apply nth_error_None in Ea; cbn in Ea; lia].
    destruct (nth_error (c :: cs) (S k)) as [b|] eqn:Eb; [|apply nth_error_None in Eb; cbn in Eb; lia].
    destruct (run_nth W _ _ _ _ _ _ Hr k a b Ea Eb) as (u & i & E & _). eauto 10.
  Qed.

  Lemma evolve_length fuel u0 n initial ts inp (g : args) infn T uf traj :
    get_input_function ts inp = Ok infn -> ends_at infn T -> 1 <= T ->
    evolve W fuel u0 n initial ts inp g = Ok (uf, traj) -> Z.of_nat (length traj) = T.
  Proof.
    intros Hi [H1 H2] HT E. destruct (evolve_run W _ _ _ _ _ _ _ _ _ E) as (infn' & sa & sn & cs & Hin & _ & _ & _ & Hr & _ & Hlast & ->).
    assert (infn' = infn) by congruence. subst infn'.
    destruct (run_traj W _ _ _ _ _ _ Hr) as (ss & Hl & -> & _). cbn [c_traj]. rewrite app_length, Hl. cbn [length].
    destruct (Z.lt_trichotomy (1 + Z.of_nat (length cs)) T) as [Hlt|[Heq|Hgt]]; [|lia|].
    - exfalso. eapply H1; [|exact Hlast|reflexivity]. lia.
    - exfalso. destruct (run_calls _ _ _ _ _ _ Hr (Z.to_nat (T - 1)) ltac:(lia)) as (u & a & n' & u' & i & Ei).
      replace (1 + Z.of_nat (Z.to_nat (T - 1))) with T in Ei by lia. apply H2 in Ei. discriminate.
  Qed.

  Lemma timestep_ends n : 1 <= n -> ends_at (timestep_input n) n.
  Proof.
    intros Hn. split.
    - intros u t a m u' r Ht E. unfold timestep_input in E. destruct (Z.eqb_spec t n); [lia|]. congruence.
    - intros u a m u' r E. unfold timestep_input in E. rewrite Z.eqb_refl in E. congruence.
  Qed.

  Lemma list_ends (l : list (option (inval I))) k :
    (forall j, (j < k)%nat -> exists i, nth_error l j = Some (Some i)) -> (nth_error l k = Some None \/ k = length l) ->
    ends_at (list_input l) (Z.of_nat k + 1).
  Proof.
    intros Hj Hk. split.
    - intros u t a m u' r Ht E. unfold list_input in E. destruct (Z.leb_spec (Z.of_nat (length l)) (t - 1)).
      + destruct (Hj (length l) ltac:(lia)) as [i Ei]. assert (Hx : nth_error l (length l) = None) by (apply nth_error_None; lia). congruence.
      + inv_bind E x Ex. apply of_opt_inv, py_nth_nonneg in Ex; [|lia]. destruct (Hj (Z.to_nat (t - 1)) ltac:(lia)) as [i Ei]. congruence.
    - intros u a m u' r E. unfold list_input in E. replace (Z.of_nat k + 1 - 1) with (Z.of_nat k) in E by lia.
      destruct (Z.leb_spec (Z.of_nat (length l)) (Z.of_nat k)); [congruence|].
      inv_bind E x Ex. apply of_opt_inv, py_nth_nonneg in Ex; [|lia]. rewrite Nat2Z.id in Ex. destruct Hk as [Hk|Hk]; [congruence|lia].
  Qed.

  Lemma loop_never g mk n : n <= 0 -> forall fuel t (c : config mk) c', 1 <= t -> loop W g mk (timestep_input n) fuel t c <> Ok c'.
  Proof.
    intros Hn. induction fuel as [|f IH]; intros t c c' Ht E; cbn [loop] in E; [discriminate|].
    unfold timestep_input in E at 1. destruct (Z.eqb_spec t n); [lia|]. cbn [rbind] in E. inv_bind E c1 Es. apply (IH (t + 1) c1 c'); [lia|assumption].
  Qed.

  Lemma loop_outoffuel g mk n : n <= 0 -> forall fuel t (c c' : config mk), 1 <= t ->
    loop W g mk (timestep_input (t + Z.of_nat fuel)) (S fuel) t c = Ok c' -> loop W g mk (timestep_input n) fuel t c = Err OutOfFuel.
  Proof.
    intros Hn. induction fuel as [|f IH]; intros t c c' Ht E; [reflexivity|].
    cbn [loop] in E. unfold timestep_input in E at 1. destruct (Z.eqb_spec t (t + Z.of_nat (S f))); [lia|]. cbn [rbind] in E.
    cbn [loop]. unfold timestep_input at 1. destruct (Z.eqb_spec t n); [lia|]. cbn [rbind].
    destruct (step W g mk t (InStr "__timestep__") (with_u c (c_u c))) as [c1|]; [|discriminate]. cbn [rbind] in *.
    apply (IH (t + 1) c1 c'); [lia|]. replace (t + 1 + Z.of_nat f) with (t + Z.of_nat (S f)) by lia. exact E.
  Qed.

  Lemma evolve_never fuel u0 n0 initial n (g : args) : n <= 0 ->
    (forall r, evolve W fuel u0 n0 initial (Some n) None g <> Ok r) /\
    ((exists r, evolve W (S fuel) u0 n0 initial (Some (1 + Z.of_nat fuel)) None g = Ok r) ->
     evolve W fuel u0 n0 initial (Some n) None g = Err OutOfFuel).
  Proof.
    intros Hn. unfold evolve. cbn [get_input_function rbind].
    match goal with |- context[if ?b then _ else _] => destruct b end; [split; [discriminate|intros [r E]; discriminate]|].
    destruct (set_activities _ _ _); cbn [rbind]; [|split; [discriminate|intros [r E]; discriminate]].
    destruct (set_network _ _ _); cbn [rbind]; [|split; [discriminate|intros [r E]; discriminate]].
    split.
    - intros r E. inv_bind E c Ec. apply loop_never in Ec; [assumption|assumption|lia].
    - intros [r E]. inv_bind E c Ec. rewrite (loop_outoffuel _ _ n Hn fuel 1 _ _ ltac:(lia) Ec). reflexivity.
  Qed.

  (** ** C24: memoization *)
  Definition set_memo (g : args) (b : bool) : args :=
    mkArgs (g_rule g) (g_topo g) (g_pert g) (g_past g) (g_order g) (g_copy g) (g_comp g) (g_pact g) (g_pnet g) b (g_key g).

  Section Memo.
    Context (g : args) (mk : memokey) (h : ctx -> res A).
    Context (Hrule : g_rule g = Some (stateless h)).
    Context (Hkey : forall x y, mk_eqb mk (mk_to mk x) (mk_to mk y) = true -> h x = h y).

    Definition sound (tab : list (mk_K mk * A)) : Prop := forall k a, In (k, a) tab -> exists y, k = mk_to mk y /\ h y = Ok a.

    Lemma mem_find_sound tab x a : sound tab -> mem_find mk tab (mk_to mk x) = Some a -> h x = Ok a.
    Proof.
      intros Hs. induction tab as [|[k b] tab IH]; cbn [mem_find]; [discriminate|].
      destruct (mk_eqb mk (mk_to mk x) k) eqn:Ek.
      - intros E. injection E as ->. destruct (Hs k a (or_introl eq_refl)) as (y & -> & Ey). rewrite (Hkey x y Ek). assumption.
      - apply IH. intros k' a' Hin. apply (Hs k' a'). right. assumption.
    Qed.

    Definition nst_rel (s s' : nst (U:=U) mk) : Prop :=
      s_u s = s_u s' /\ s_curr s = s_curr s' /\ s_added s = s_added s' /\ s_removed s = s_removed s' /\ sound (s_tab s).

    Lemma apply_rule_rel u tab tab' x : sound tab ->
      res_rel (fun p q => fst (fst p) = fst (fst q) /\ snd p = snd q /\ sound (snd (fst p)))
        (apply_rule (set_memo g true) mk (stateless h) u tab x) (apply_rule (set_memo g false) mk (stateless h) u tab' x).
    Proof.
      intros Hs. unfold apply_rule, set_memo. cbn [g_memo]. destruct (mem_find mk tab (mk_to mk x)) as [a|] eqn:Ef.
      - apply mem_find_sound in Ef; [|assumption]. unfold stateless. rewrite Ef. cbn. auto.
      - unfold stateless. destruct (h x) as [a|e] eqn:Eh; cbn; [|reflexivity]. split; [reflexivity|]. split; [reflexivity|].
        intros k b Hin. apply in_app_or in Hin. destruct Hin as [Hin|[Hin|[]]]; [apply Hs; assumption|]. inversion Hin; subst. eauto.
    Qed.

    Lemma node_step_rel t inp prev n past nmap s s' v : nst_rel s s' ->
      res_rel nst_rel (node_step W (set_memo g true) mk (stateless h) t inp prev n past nmap s v)
                      (node_step W (set_memo g false) mk (stateless h) t inp prev n past nmap s' v).
    Proof.
      intros (E1 & E2 & E3 & E4 & Hs). unfold node_step. apply res_rel_same. intros x _.
      eapply res_rel_bind; [rewrite <- E1; apply (apply_rule_rel _ (s_tab s) (s_tab s')); assumption|].
      intros [[u1 tab1] o] [[u1' tab1'] o'] (F1 & F2 & F3). cbn [fst snd] in *. subst. rewrite <- E2, <- E3, <- E4.
      cbn [set_memo g_pert]. destruct (g_pert g) as [p|].
      - apply res_rel_same. intros a _. apply res_rel_same. intros [u2 a'] _. cbn. repeat split; assumption.
      - cbn. repeat split; assumption.
    Qed.

    Lemma rfold_rel t inp prev n past nmap vs : forall s s', nst_rel s s' ->
      res_rel nst_rel (rfold (node_step W (set_memo g true) mk (stateless h) t inp prev n past nmap) vs s)
                      (rfold (node_step W (set_memo g false) mk (stateless h) t inp prev n past nmap) vs s').
    Proof.
      induction vs as [|v vs IH]; intros s s' Hr; cbn [rfold]; [exact Hr|].
      eapply res_rel_bind; [apply node_step_rel; exact Hr|]. intros; apply IH; assumption.
    Qed.

    Lemma activities_rel t inp u prev tab tab' n past nmap : sound tab ->
      res_rel nst_rel (evolve_activities W (set_memo g true) mk t inp u prev tab n past nmap)
                      (evolve_activities W (set_memo g false) mk t inp u prev tab' n past nmap).
    Proof.
      intros Hs. unfold evolve_activities. cbn [set_memo g_rule]. rewrite Hrule. unfold do_activity_rule.
      eapply res_rel_bind; [apply rfold_rel; repeat split; assumption|].
      intros s s' (E1 & E2 & E3 & E4 & Hs'). cbn. rewrite E1, E2, E3, E4. repeat split; assumption.
    Qed.

    Definition cfg_rel (c c' : config mk) : Prop :=
      c_u c = c_u c' /\ c_act c = c_act c' /\ c_net c = c_net c' /\ c_map c = c_map c' /\ c_traj c = c_traj c' /\ sound (c_tab c).

    Lemma step_rel t inp c c' : cfg_rel c c' ->
      res_rel cfg_rel (step W (set_memo g true) mk t inp c) (step W (set_memo g false) mk t inp c').
    Proof.
      intros (E1 & E2 & E3 & E4 & E5 & Hs). unfold step. rewrite <- E1, <- E2, <- E3, <- E4, <- E5.
      change (get_past W (set_memo g true)) with (get_past W g). change (get_past W (set_memo g false)) with (get_past W g).
      change (g_order (set_memo g true)) with (g_order g). change (g_order (set_memo g false)) with (g_order g).
      change (@record_activities _ _ _ _ _ _ _ W (set_memo g true)) with (record_activities W g).
      change (@record_activities _ _ _ _ _ _ _ W (set_memo g false)) with (record_activities W g).
      change (@record_network _ _ _ _ _ _ _ W (set_memo g true)) with (record_network W g).
      change (@record_network _ _ _ _ _ _ _ W (set_memo g false)) with (record_network W g).
      change (@evolve_topology _ _ _ _ _ _ _ _ W (set_memo g true)) with (evolve_topology W g).
      change (@evolve_topology _ _ _ _ _ _ _ _ W (set_memo g false)) with (evolve_topology W g).
      apply res_rel_same. intros past _. destruct (g_order g).
      - eapply res_rel_bind; [apply activities_rel; exact Hs|]. intros s s' (F1 & F2 & F3 & F4 & Hs'). rewrite <- F1, <- F2, <- F3, <- F4.
        apply res_rel_same. intros sa _. apply res_rel_same. intros [u2 n2] _. apply res_rel_same. intros sn _. cbn. repeat split; assumption.
      - apply res_rel_same. intros [u1 n2] _. apply res_rel_same. intros sn _.
        eapply res_rel_bind; [apply activities_rel; exact Hs|]. intros s s' (F1 & F2 & F3 & F4 & Hs'). rewrite <- F1, <- F2.
        apply res_rel_same. intros sa _. cbn. repeat split; assumption.
      - apply res_rel_same. intros [u1 n2] _. apply res_rel_same. intros sn _.
        eapply res_rel_bind; [apply activities_rel; exact Hs|]. intros s s' (F1 & F2 & F3 & F4 & Hs'). rewrite <- F1, <- F2.
        apply res_rel_same. intros sa _. cbn. repeat split; assumption.
    Qed.

    Lemma loop_rel infn fuel : forall t c c', cfg_rel c c' ->
      res_rel cfg_rel (loop W (set_memo g true) mk infn fuel t c) (loop W (set_memo g false) mk infn fuel t c').
    Proof.
      induction fuel as [|f IH]; intros t c c' Hr; cbn [loop]; [reflexivity|].
      destruct Hr as (E1 & E2 & E3 & E4 & E5 & Hs). rewrite <- E1, <- E2, <- E3. apply res_rel_same. intros [u [i|]] _.
      - eapply res_rel_bind; [apply step_rel; repeat split; cbn; assumption|]. intros; apply IH; assumption.
      - cbn. repeat split; assumption.
    Qed.
  End Memo.

  Lemma memo_transparent fuel u0 n initial ts inp (g : args) h :
    g_rule g = Some (stateless h) ->
    (let mk := match g_key g with Some k => k | None => default_key n end in
     forall x y, mk_eqb mk (mk_to mk x) (mk_to mk y) = true -> h x = h y) ->
    evolve W fuel u0 n initial ts inp (set_memo g true) = evolve W fuel u0 n initial ts inp (set_memo g false).
  Proof.
    intros Hr Hk. unfold evolve. change (g_key (set_memo g true)) with (g_key g). change (g_key (set_memo g false)) with (g_key g).
    change (g_rule (set_memo g true)) with (g_rule g). change (g_rule (set_memo g false)) with (g_rule g).
    change (g_topo (set_memo g true)) with (g_topo g). change (g_topo (set_memo g false)) with (g_topo g).
    change (g_comp (set_memo g true)) with (g_comp g). change (g_comp (set_memo g false)) with (g_comp g).
    cbn zeta in Hk. destruct (get_input_function ts inp) as [infn|]; [|reflexivity]. cbn [rbind].
    match goal with |- context[if ?b then _ else _] => destruct b end; [reflexivity|].
    destruct (set_activities _ _ _) as [sa|]; [|reflexivity]. cbn [rbind]. destruct (set_network _ _ _) as [sn|]; [|reflexivity]. cbn [rbind].
    set (mk := match g_key g with Some k => k | None => default_key n end) in *.
    match goal with |- rbind (loop _ _ _ _ _ _ ?c) _ = _ => pose proof (loop_rel g mk h Hr Hk infn fuel 1 c c) as Hl end.
    match type of Hl with ?P -> _ => assert (HP : P) by (repeat split; intros k a []) end. specialize (Hl HP).
    unfold res_rel in Hl. destruct (loop W (set_memo g true) _ _ _ _ _) as [c1|]; destruct (loop W (set_memo g false) _ _ _ _ _) as [c2|]; try contradiction.
    - cbn [rbind]. destruct Hl as (E1 & _ & _ & _ & E5 & _). rewrite E1, E5. reflexivity.
    - cbn [rbind]. congruence.
  Qed.

  (** ** C26: persistence flags *)
  Definition set_persist (g : args) (pa pn : bool) : args :=
    mkArgs (g_rule g) (g_topo g) (g_pert g) (g_past g) (g_order g) (g_copy g) (g_comp g) pa pn (g_memo g) (g_key g).

  (** the recorded states with the later ones blanked according to the flags *)
  Definition blank (pa pn : bool) (s : state) : state :=
    mkState (if pa then st_act s else None) (if pn then st_net s else None).
  Definition blanked (pa pn : bool) (l : list state) : list state :=
    match l with [] => [] | s :: ss => s :: map (blank pa pn) ss end.

  Section Persist.
    Context (g : args) (mk : memokey) (pa pn : bool).
    Context (Hcomp : g_comp g = false).
    Context (Hpast : g_past g = [] \/ pa = true).

    Let gt := set_persist g true true.
    Let gp := set_persist g pa pn.

    Definition blank_rel (c c' : config mk) : Prop :=
      c_u c = c_u c' /\ c_act c = c_act c' /\ c_net c = c_net c' /\ c_tab c = c_tab c' /\ c_map c = c_map c' /\
      c_traj c <> [] /\ c_traj c' = blanked pa pn (c_traj c).

    Lemma blanked_snoc l s : l <> [] -> blanked pa pn (l ++ [s]) = blanked pa pn l ++ [blank pa pn s].
    Proof. destruct l as [|x l]; [congruence|]. intros _. cbn. rewrite map_app. reflexivity. Qed.

    Lemma blanked_nth_act l k : pa = true -> option_map (@st_act _ _ _ _ _) (nth_error (blanked pa pn l) k) = option_map (@st_act _ _ _ _ _) (nth_error l k).
    Proof.
      intros Hpa. destruct l as [|x l]; [reflexivity|]. destruct k as [|k]; [reflexivity|]. cbn [blanked nth_error].
      rewrite nth_error_map. destruct (nth_error l k) as [s|]; [|reflexivity]. cbn. rewrite Hpa. reflexivity.
    Qed.

    Lemma length_blanked l : length (blanked pa pn l) = length l.
    Proof. destruct l; cbn; [reflexivity|]. rewrite map_length. reflexivity. Qed.

    Lemma past_entry_blanked l last_t : pa = true -> past_entry W g (blanked pa pn l) last_t = past_entry W g l last_t.
    Proof.
      intros Hpa. unfold past_entry. destruct (last_t <? 1); [reflexivity|]. unfold py_nth. rewrite length_blanked.
      destruct (py_index (length l) (last_t - 1)) as [k|]; [|reflexivity]. pose proof (blanked_nth_act l k Hpa) as Hk.
      destruct (nth_error l k) as [s|], (nth_error (blanked pa pn l) k) as [s'|]; cbn in Hk; try discriminate; [|reflexivity].
      injection Hk as Hk. cbn [of_opt rbind]. unfold activities. rewrite Hk. reflexivity.
    Qed.

    Lemma past_loop_blanked l i : pa = true -> forall last_t acc, past_loop W g (blanked pa pn l) i last_t acc = past_loop W g l i last_t acc.
    Proof.
      intros Hpa. induction i as [|i IH]; intros last_t acc; cbn [past_loop]; [reflexivity|]. rewrite past_entry_blanked by assumption.
      destruct (past_entry W g l last_t); [|reflexivity]. cbn [rbind]. apply IH.
    Qed.

    Lemma get_past_blanked l t : get_past W g (blanked pa pn l) t = get_past W g l t.
    Proof.
      unfold get_past. destruct (g_past g) as [|c cs] eqn:Eg; [reflexivity|]. rewrite <- Eg. destruct Hpast as [Hp|Hp]; [congruence|].
      rewrite past_loop_blanked by assumption. reflexivity.
    Qed.

    Lemma record_a_blank a : res_rel (fun x y => y = (if pa then x else None)) (record_activities W gt a) (record_activities W gp a).
    Proof.
      unfold record_activities, gt, gp, set_persist. cbn [g_pact g_comp]. rewrite Hcomp. destruct pa.
      - destruct (set_activities W false a); reflexivity.
      - destruct a as [|]; reflexivity.
    Qed.
    Lemma record_n_blank n : res_rel (fun x y => y = (if pn then x else None)) (record_network W gt n) (record_network W gp n).
    Proof.
      unfold record_network, gt, gp, set_persist. cbn [g_pnet g_comp]. rewrite Hcomp. destruct pn.
      - destruct (set_network W false n); reflexivity.
      - unfold set_network. destruct (net_nodes n) as [|]; reflexivity.
    Qed.

    Lemma blank_cfg u a n tab m tr sa sn : tr <> [] ->
      blank_rel (mkCfg u a n tab m (tr ++ [mkState sa sn]))
                (mkCfg u a n tab m (blanked pa pn tr ++ [mkState (if pa then sa else None) (if pn then sn else None)])).
    Proof.
      intros Hne. repeat split; try reflexivity; cbn [c_traj].
      - destruct tr; discriminate.
      - rewrite blanked_snoc by assumption. reflexivity.
    Qed.

    Lemma step_blank t inp c c' : blank_rel c c' -> res_rel blank_rel (step W gt mk t inp c) (step W gp mk t inp c').
    Proof.
      intros (E1 & E2 & E3 & E4 & E5 & Hne & E6). unfold step. rewrite <- E1, <- E2, <- E3, <- E4, <- E5, E6.
      change (get_past W gt) with (get_past W g). change (get_past W gp) with (get_past W g). rewrite get_past_blanked.
      change (g_order gt) with (g_order g). change (g_order gp) with (g_order g).
      change (@evolve_topology _ _ _ _ _ _ _ _ W gt) with (evolve_topology W g).
      change (@evolve_topology _ _ _ _ _ _ _ _ W gp) with (evolve_topology W g).
      change (@evolve_activities _ _ _ _ _ _ _ _ W gt) with (evolve_activities W g).
      change (@evolve_activities _ _ _ _ _ _ _ _ W gp) with (evolve_activities W g).
      apply res_rel_same. intros past _. destruct (g_order g).
      - apply res_rel_same. intros s _. eapply res_rel_bind; [apply record_a_blank|]. intros sa sa' ->.
        apply res_rel_same. intros [u2 n2] _. eapply res_rel_bind; [apply record_n_blank|]. intros sn sn' ->.
        apply blank_cfg. assumption.
      - apply res_rel_same. intros [u1 n2] _. eapply res_rel_bind; [apply record_n_blank|]. intros sn sn' ->.
        apply res_rel_same. intros s _. eapply res_rel_bind; [apply record_a_blank|]. intros sa sa' ->.
        apply blank_cfg. assumption.
      - apply res_rel_same. intros [u1 n2] _. eapply res_rel_bind; [apply record_n_blank|]. intros sn sn' ->.
        apply res_rel_same. intros s _. eapply res_rel_bind; [apply record_a_blank|]. intros sa sa' ->.
        apply blank_cfg. assumption.
    Qed.

    Lemma loop_blank infn fuel : forall t c c', blank_rel c c' ->
      res_rel blank_rel (loop W gt mk infn fuel t c) (loop W gp mk infn fuel t c').
    Proof.
      induction fuel as [|f IH]; intros t c c' Hr; cbn [loop]; [reflexivity|].
      destruct Hr as (E1 & E2 & E3 & E4 & E5 & Hne & E6). rewrite <- E1, <- E2, <- E3. apply res_rel_same. intros [u [i|]] _.
      - eapply res_rel_bind; [apply step_blank; repeat split; cbn; assumption|]. intros; apply IH; assumption.
      - cbn. repeat split; assumption.
    Qed.
  End Persist.

  Lemma persist_flags fuel u0 n initial ts inp (g : args) pa pn :
    g_comp g = false -> (g_past g = [] \/ pa = true) ->
    evolve W fuel u0 n initial ts inp (set_persist g pa pn) =
      ' (u, traj) <- evolve W fuel u0 n initial ts inp (set_persist g true true) ;; Ok (u, blanked pa pn traj).
  Proof.
    intros Hc Hp. unfold evolve. cbn [set_persist g_key g_rule g_topo g_comp].
    destruct (get_input_function ts inp) as [infn|]; [|reflexivity]. cbn [rbind].
    match goal with |- context[if ?b then _ else _] => destruct b end; [reflexivity|].
    destruct (set_activities _ _ _) as [sa|]; [|reflexivity]. cbn [rbind]. destruct (set_network _ _ _) as [sn|]; [|reflexivity]. cbn [rbind].
    set (mk := match g_key g with Some k => k | None => default_key n end) in *.
    match goal with |- rbind (loop _ _ _ _ _ _ ?c) _ = _ => pose proof (loop_blank g mk pa pn Hc Hp infn fuel 1 c c) as Hl end.
    match type of Hl with ?P -> _ => assert (HP : P) by (repeat split; discriminate) end. specialize (Hl HP).
    unfold res_rel in Hl. destruct (loop W (set_persist g true true) _ _ _ _ _) as [c1|]; destruct (loop W (set_persist g pa pn) _ _ _ _ _) as [c2|]; try contradiction.
    - cbn [rbind]. destruct Hl as (E1 & _ & _ & _ & _ & _ & E6). rewrite E1, E6. reflexivity.
    - cbn [rbind]. congruence.
  Qed.

  (** ** C27: compression *)
  Definition set_comp (g : args) (b : bool) : args :=
    mkArgs (g_rule g) (g_topo g) (g_pert g) (g_past g) (g_order g) (g_copy g) b (g_pact g) (g_pnet g) (g_memo g) (g_key g).

  Section Comp.
    Context (g : args) (mk : memokey).
    (** what a round trip through the packer does to the values for which it works *)
    Context (Pa : acts -> Prop) (fa : acts -> acts) (Pn : network -> Prop) (fn : network -> network).
    Context (Hpa : forall a, Pa a -> exists b, e_pack_a W a = Ok b /\ e_unpack_a W b = Ok (fa a)).
    Context (Hpn : forall n, Pn n -> exists b, e_pack_n W n = Ok b /\ e_unpack_n W b = Ok (fn n)).
    Context (Hpast : g_past g = [] \/ forall a, Pa a -> fa a = a).

    Let g0 := set_comp g false.
    Let g1 := set_comp g true.

    (** an uncompressed state holds values the packer handles *)
    Definition packable (s : state) : Prop :=
      (forall a, st_act s = Some (Raw a) -> Pa a) /\ (forall n, st_net s = Some (Raw n) -> Pn n).

    (** same content up to [fa] and [fn] *)
    Definition same_state (s s' : state) : Prop :=
      (exists a, activities W s = Ok a /\ activities W s' = Ok (option_map fa a)) /\
      (exists n, state_network W s = Ok n /\ state_network W s' = Ok (option_map fn n)) /\
      (g_past g = [] \/ activities W s = activities W s').

    Definition comp_rel (c c' : config mk) : Prop :=
      c_u c = c_u c' /\ c_act c = c_act c' /\ c_net c = c_net c' /\ c_tab c = c_tab c' /\ c_map c = c_map c' /\
      Forall2 same_state (c_traj c) (c_traj c').

    Lemma set_a_comp a x : set_activities W false a = Ok x -> (forall a', x = Some (Raw a') -> Pa a') ->
      exists x', set_activities W true a = Ok x' /\ forall sn sn',
        (exists a, activities W (mkState x sn) = Ok a /\ activities W (mkState x' sn') = Ok (option_map fa a)) /\
        (g_past g = [] \/ activities W (mkState x sn) = activities W (mkState x' sn')).
    Proof.
      unfold set_activities. destruct a as [|kv a].
      - intros E _. injection E as <-. exists None. split; [reflexivity|]. intros. split; [exists None; auto|right; reflexivity].
      - intros E Hp. injection E as <-. destruct (Hpa _ (Hp _ eq_refl)) as (b & E1 & E2). rewrite E1. cbn [rbind].
        exists (Some (Packed b)). split; [reflexivity|]. intros sn sn'. unfold activities. cbn [st_act]. rewrite E2. cbn [rbind]. split.
        + eexists; split; reflexivity.
        + destruct Hpast as [Hx|Hx]; [left; assumption|right]. rewrite (Hx _ (Hp _ eq_refl)). reflexivity.
    Qed.

    Lemma set_n_comp n x : set_network W false n = Ok x -> (forall n', x = Some (Raw n') -> Pn n') ->
      exists x', set_network W true n = Ok x' /\ forall sa sa',
        exists a, state_network W (mkState sa x) = Ok a /\ state_network W (mkState sa' x') = Ok (option_map fn a).
    Proof.
      unfold set_network. destruct (net_nodes n) as [|kv d].
      - intros E _. injection E as <-. exists None. split; [reflexivity|]. intros. exists None. auto.
      - intros E Hp. injection E as <-. destruct (Hpn _ (Hp _ eq_refl)) as (b & E1 & E2). rewrite E1. cbn [rbind].
        exists (Some (Packed b)). split; [reflexivity|]. intros sa sa'. unfold state_network. cbn [st_net]. rewrite E2. cbn [rbind].
        eexists; split; reflexivity.
    Qed.

    Lemma record_a_comp a x : record_activities W g0 a = Ok x -> (forall a', x = Some (Raw a') -> Pa a') ->
      exists x', record_activities W g1 a = Ok x' /\ forall sn sn',
        (exists a, activities W (mkState x sn) = Ok a /\ activities W (mkState x' sn') = Ok (option_map fa a)) /\
        (g_past g = [] \/ activities W (mkState x sn) = activities W (mkState x' sn')).
    Proof.
      unfold record_activities, g0, g1, set_comp. cbn [g_pact g_comp]. destruct (g_pact g); [apply set_a_comp|].
      intros E _. injection E as <-. exists None. split; [reflexivity|]. intros. split; [exists None; auto|right; reflexivity].
    Qed.
    Lemma record_n_comp n x : record_network W g0 n = Ok x -> (forall n', x = Some (Raw n') -> Pn n') ->
      exists x', record_network W g1 n = Ok x' /\ forall sa sa',
        exists a, state_network W (mkState sa x) = Ok a /\ state_network W (mkState sa' x') = Ok (option_map fn a).
    Proof.
      unfold record_network, g0, g1, set_comp. cbn [g_pnet g_comp]. destruct (g_pnet g); [apply set_n_comp|].
      intros E _. injection E as <-. exists None. split; [reflexivity|]. intros. exists None. auto.
    Qed.

    Lemma Forall2_len {X Y} (P : X -> Y -> Prop) l l' : Forall2 P l l' -> length l = length l'.
    Proof. induction 1; cbn; congruence. Qed.
    Lemma Forall2_nth {X Y} (P : X -> Y -> Prop) l l' k : Forall2 P l l' ->
      match nth_error l k, nth_error l' k with Some x, Some y => P x y | None, None => True | _, _ => False end.
    Proof. intros Hf. revert k. induction Hf; intros [|k]; cbn; auto. apply IHHf. Qed.

    Lemma past_entry_comp l l' last_t : g_past g <> [] -> Forall2 same_state l l' -> past_entry W g l last_t = past_entry W g l' last_t.
    Proof.
      intros Hne Hf. unfold past_entry. destruct (last_t <? 1); [reflexivity|]. unfold py_nth. rewrite (Forall2_len _ _ _ Hf).
      destruct (py_index (length l') (last_t - 1)) as [k|]; [|reflexivity]. pose proof (Forall2_nth _ _ _ k Hf) as Hk.
      destruct (nth_error l k), (nth_error l' k); try contradiction; [|reflexivity]. cbn. destruct Hk as (_ & _ & [Hk|Hk]); [contradiction|assumption].
    Qed.
    Lemma past_loop_comp l l' i : g_past g <> [] -> Forall2 same_state l l' -> forall last_t acc, past_loop W g l i last_t acc = past_loop W g l' i last_t acc.
    Proof.
      intros Hne Hf. induction i as [|i IH]; intros last_t acc; cbn [past_loop]; [reflexivity|]. rewrite (past_entry_comp l l') by assumption.
      destruct (past_entry W g l' last_t); [|reflexivity]. cbn [rbind]. apply IH.
    Qed.
    Lemma get_past_comp l l' t : Forall2 same_state l l' -> get_past W g l t = get_past W g l' t.
    Proof.
      intros Hf. unfold get_past. destruct (g_past g) as [|c cs] eqn:Eg; [reflexivity|]. rewrite <- Eg.
      rewrite (past_loop_comp l l'); [reflexivity|congruence|assumption].
    Qed.

    Lemma step_comp t inp c c' c1 : comp_rel c c' -> step W g0 mk t inp c = Ok c1 -> (forall s, In s (c_traj c1) -> packable s) ->
      exists c1', step W g1 mk t inp c' = Ok c1' /\ comp_rel c1 c1'.
    Proof.
      intros (E1 & E2 & E3 & E4 & E5 & E6) E Hpk. unfold step in *. rewrite <- E1, <- E2, <- E3, <- E4, <- E5.
      change (get_past W g0) with (get_past W g) in *. change (get_past W g1) with (get_past W g). rewrite <- (get_past_comp _ _ _ E6).
      change (g_order g0) with (g_order g) in *. change (g_order g1) with (g_order g).
      change (@evolve_topology _ _ _ _ _ _ _ _ W g0) with (evolve_topology W g) in *.
      change (@evolve_topology _ _ _ _ _ _ _ _ W g1) with (evolve_topology W g).
      change (@evolve_activities _ _ _ _ _ _ _ _ W g0) with (evolve_activities W g) in *.
      change (@evolve_activities _ _ _ _ _ _ _ _ W g1) with (evolve_activities W g).
      inv_bind E past Ep. rewrite Ep. cbn [rbind]. destruct (g_order g).
      - inv_bind E s Es. rewrite Es. cbn [rbind]. inv_bind E sa Esa. inv_bind E un Et. destruct un as [u2 n2]. inv_bind E sn Esn. injection E as <-.
        cbn [c_traj] in Hpk. destruct (Hpk (mkState sa sn) ltac:(apply in_or_app; right; left; reflexivity)) as [Ha Hn]. cbn [st_act st_net] in *.
        destruct (record_a_comp _ _ Esa Ha) as (sa' & -> & Ra). destruct (record_n_comp _ _ Esn Hn) as (sn' & Rn & Rn').
        cbn [rbind]. rewrite Et. cbn [rbind]. rewrite Rn. cbn [rbind]. eexists. split; [reflexivity|]. repeat split; try reflexivity; cbn [c_traj].
        apply Forall2_app; [assumption|]. constructor; [|constructor]. destruct (Ra sn sn') as [R1 R2]. split; [assumption|]. split; [apply Rn'|assumption].
      - inv_bind E un Et. destruct un as [u1 n2]. rewrite Et. cbn [rbind]. inv_bind E sn Esn. inv_bind E s Es. inv_bind E sa Esa. injection E as <-.
        cbn [c_traj] in Hpk. destruct (Hpk (mkState sa sn) ltac:(apply in_or_app; right; left; reflexivity)) as [Ha Hn]. cbn [st_act st_net] in *.
        destruct (record_a_comp _ _ Esa Ha) as (sa' & Ra0 & Ra). destruct (record_n_comp _ _ Esn Hn) as (sn' & Rn & Rn').
        rewrite Rn. cbn [rbind]. rewrite Es. cbn [rbind]. rewrite Ra0. cbn [rbind]. eexists. split; [reflexivity|]. repeat split; try reflexivity; cbn [c_traj].
        apply Forall2_app; [assumption|]. constructor; [|constructor]. destruct (Ra sn sn') as [R1 R2]. split; [assumption|]. split; [apply Rn'|assumption].
      - inv_bind E un Et. destruct un as [u1 n2]. rewrite Et. cbn [rbind]. inv_bind E sn Esn. inv_bind E s Es. inv_bind E sa Esa. injection E as <-.
        cbn [c_traj] in Hpk. destruct (Hpk (mkState sa sn) ltac:(apply in_or_app; right; left; reflexivity)) as [Ha Hn]. cbn [st_act st_net] in *.
        destruct (record_a_comp _ _ Esa Ha) as (sa' & Ra0 & Ra). destruct (record_n_comp _ _ Esn Hn) as (sn' & Rn & Rn').
        rewrite Rn. cbn [rbind]. rewrite Es. cbn [rbind]. rewrite Ra0. cbn [rbind]. eexists. split; [reflexivity|]. repeat split; try reflexivity; cbn [c_traj].
        apply Forall2_app; [assumption|]. constructor; [|constructor]. destruct (Ra sn sn') as [R1 R2]. split; [assumption|]. split; [apply Rn'|assumption].
    Qed.

    Lemma loop_traj_incl (gg : args) infn fuel : forall t (c c' : config mk), loop W gg mk infn fuel t c = Ok c' -> incl (c_traj c) (c_traj c').
    Proof.
      intros t c c' E. destruct (loop_run W gg mk infn fuel t c c' E) as (cs & u & Hr & _ & _ & ->). cbn [with_u c_traj].
      destruct (run_traj W _ _ _ _ _ _ Hr) as (ss & _ & -> & _). intros s Hs. apply in_or_app. left. assumption.
    Qed.

    Lemma loop_comp infn fuel : forall t c c' c1, comp_rel c c' -> loop W g0 mk infn fuel t c = Ok c1 -> (forall s, In s (c_traj c1) -> packable s) ->
      exists c1', loop W g1 mk infn fuel t c' = Ok c1' /\ comp_rel c1 c1'.
    Proof.
      induction fuel as [|f IH]; intros t c c' c1 Hr E Hpk; cbn [loop] in *; [discriminate|].
      inv_bind E ui Ei. destruct ui as [u [i|]].
      - inv_bind E c2 Es. destruct Hr as (E1 & E2 & E3 & E4 & E5 & E6). rewrite <- E1, <- E2, <- E3, Ei. cbn [rbind].
        destruct (step_comp t i (with_u c u) (with_u c' u) c2) as (c2' & Es' & Hr'); [repeat split; assumption|assumption| |].
        + intros s Hs. apply Hpk. eapply loop_traj_incl; eassumption.
        + rewrite Es'. cbn [rbind]. eapply IH; eassumption.
      - injection E as <-. destruct Hr as (E1 & E2 & E3 & E4 & E5 & E6). rewrite <- E1, <- E2, <- E3, Ei. cbn [rbind].
        eexists. split; [reflexivity|]. repeat split; assumption.
    Qed.
  End Comp.

  Lemma compression_transparent fuel u0 n initial ts inp (g : args) (Pa : acts -> Prop) fa (Pn : network -> Prop) fn uf traj :
    (forall a, Pa a -> exists b, e_pack_a W a = Ok b /\ e_unpack_a W b = Ok (fa a)) ->
    (forall n, Pn n -> exists b, e_pack_n W n = Ok b /\ e_unpack_n W b = Ok (fn n)) ->
    (g_past g = [] \/ forall a, Pa a -> fa a = a) ->
    evolve W fuel u0 n initial ts inp (set_comp g false) = Ok (uf, traj) ->
    (forall s, In s traj -> packable Pa Pn s) ->
    exists traj', evolve W fuel u0 n initial ts inp (set_comp g true) = Ok (uf, traj') /\
      Forall2 (fun s s' => exists a nn, activities W s = Ok a /\ activities W s' = Ok (option_map fa a) /\
                                        state_network W s = Ok nn /\ state_network W s' = Ok (option_map fn nn)) traj traj'.
  Proof.
    intros Hpa Hpn Hpast E Hpk. unfold evolve in *. cbn [set_comp g_key g_rule g_topo g_comp] in *.
    inv_bind E infn Ein. rewrite Ein. cbn [rbind].
    match goal with |- context[if ?b then _ else _] => destruct b end; [discriminate|].
    inv_bind E sa Esa. inv_bind E sn Esn. inv_bind E c Ec. injection E as <- <-.
    assert (Hin : In (mkState sa sn) (c_traj c)) by (eapply loop_traj_incl; [exact Ec|left; reflexivity]).
    destruct (Hpk _ Hin) as [Ha Hn]. cbn [st_act st_net] in *.
    destruct (set_a_comp g Pa fa Hpa Hpast _ _ Esa Ha) as (sa' & -> & Ra). destruct (set_n_comp Pn fn Hpn _ _ Esn Hn) as (sn' & -> & Rn). cbn [rbind].
    set (mk := match g_key g with Some k => k | None => default_key n end) in *.
    match goal with |- context[loop W _ mk infn fuel 1 ?c2] =>
      pose proof (fun Hr => loop_comp g mk Pa fa Pn fn Hpa Hpn Hpast infn fuel 1 _ c2 _ Hr Ec Hpk) as X end.
    destruct X as (c' & Ec' & Hr).
    - repeat split; try reflexivity. cbn [c_traj]. constructor; [|constructor]. destruct (Ra sn sn') as [R1 R2]. split; [assumption|]. split; [apply Rn|assumption].
    - rewrite Ec'. cbn [rbind]. destruct Hr as (E1 & _ & _ & _ & _ & E6). rewrite E1. eexists. split; [reflexivity|].
      eapply Forall2_impl; [|exact E6]. intros s s' ((a & A1 & A2) & (m & M1 & M2) & _). exists a, m. auto.
  Qed.
End Proofs2.
