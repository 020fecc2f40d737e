(** * Contexts seen by the rule, default memoization keys, evolve over msgpack values *)
From Verif Require Import Py PyFacts ListFacts Network NetworkSpec Msgpack MsgpackSpec MsgpackProofs NetCopy.
From Verif Require Import Evolve EvolveSpec EvolveProofs EvolveProofs2 EvolveProofs3.
Open Scope string_scope.
Open Scope list_scope.
Open Scope Z_scope.

Section Proofs4.
  Context {L V A U I BA BN : Type} `{EqD L} `{EqD A}.
  Context (W : env L V A BA BN).

  Notation network := (network L V).
  Notation acts := (dict L A).
  Notation ctx := (node_ctx L V A I).
  Notation args := (@args L V A U I).
  Notation state := (state L V A BA BN).
  Notation call := (@call L V A I).

  (** the network whose nodes are updated between snapshots [a] and [b] *)
  Definition in_force (g : args) (a b : snap (L:=L) (V:=V) (A:=A) (U:=U)) : network :=
    match g_order g with TOPOLOGY_FIRST => h_net b | _ => h_net a end.

  Lemma evolve_calls fuel (u0 : U) n initial ts inp (g : args) r uf traj :
    g_rule g = Some r ->
    g_memo g = false -> NoDup (nodes n) -> topo_ok g -> (g_topo g = None \/ no_insert g \/ g_order g <> ACTIVITIES_FIRST) ->
    evolve W fuel u0 n initial ts inp g = Ok (uf, traj) ->
    exists infn hs, get_input_function ts inp = Ok infn /\
      run_spec W infn g u0 (match initial with None => [] | Some c => to_dict W c end) n hs uf traj /\
      forall k a b, nth_error hs k = Some a -> nth_error hs (S k) = Some b ->
        exists u i past (ks : list call) u1 u2,
          infn (h_u a) (Z.of_nat k + 1) (h_act a) (h_net a) = Ok (u, Some i) /\
          past_at W g (firstn (S k) traj) (Z.of_nat k + 1) past /\
          calls_from r (g_pert g) u1 ks u2 /\
          Forall2 (ctx_for W (in_force g a b) (h_act a) (Z.of_nat k + 1) past i) (nodes (in_force g a b)) (map k_ctx ks) /\
          h_act b = new_activities ks.
  Proof.
    intros Hr Hg Hnd Hok Hcase E. destruct (evolve_meets_spec W fuel u0 n initial ts inp g uf traj Hg Hnd Hok Hcase E) as (infn & hs & Hin & Hrun).
    exists infn, hs. split; [assumption|]. split; [assumption|]. intros k a b Ea Eb.
    destruct (rs_step _ _ _ _ _ _ _ _ _ Hrun k a b Ea Eb) as (u & i & past & s & Ei & Hp & Ht & _).
    unfold timestep, in_force in *. destruct (g_order g).
    - destruct Ht as (ks & u1 & n1 & Hact & _). unfold activities_step in Hact. rewrite Hr in Hact. destruct Hact as (H1 & H2 & H3). exists u, i, past, ks, u, u1. auto 10.
    - destruct Ht as (ks & u1 & _ & Hact). unfold activities_step in Hact. rewrite Hr in Hact. destruct Hact as (H1 & H2 & H3). exists u, i, past, ks, u1, (h_u b). auto 10.
    - destruct Ht as (ks & u1 & _ & Hact). unfold activities_step in Hact. rewrite Hr in Hact. destruct Hact as (H1 & H2 & H3). exists u, i, past, ks, u1, (h_u b). auto 10.
  Qed.

  Lemma Forall2_in_r {X Y} (P : X -> Y -> Prop) l l' y : Forall2 P l l' -> In y l' -> exists x, In x l /\ P x y.
  Proof. induction 1; cbn; [contradiction|]. intros [<-|Hin]; [eauto|]. destruct (IHForall2 Hin) as (z & Hz & Pz). eauto. Qed.

  Lemma calls_ctx n S t past i vs (ks : list call) : Forall2 (ctx_for W n S t past i) vs (map k_ctx ks) ->
    map (fun k => x_label (k_ctx k)) ks = vs /\ forall k, In k ks -> ctx_for W n S t past i (x_label (k_ctx k)) (k_ctx k).
  Proof.
    intros Hf. split; [eapply Forall2_map_fst; [|exact Hf]; intros v x Hx; apply (cf_label _ _ _ _ _ _ _ _ Hx)|].
    intros k Hk. destruct (Forall2_in_r _ _ _ (k_ctx k) Hf (in_map _ _ _ Hk)) as (v & _ & Hx). pose proof (cf_label _ _ _ _ _ _ _ _ Hx). congruence.
  Qed.

  (** C20 *)
  Lemma neighbourhoods fuel (u0 : U) n initial ts inp (g : args) r uf traj :
    g_rule g = Some r -> g_memo g = false -> NoDup (nodes n) -> topo_ok g -> (g_topo g = None \/ no_insert g \/ g_order g <> ACTIVITIES_FIRST) ->
    evolve W fuel u0 n initial ts inp g = Ok (uf, traj) ->
    exists infn hs, run_spec W infn g u0 (match initial with None => [] | Some c => to_dict W c end) n hs uf traj /\
      forall k a b, nth_error hs k = Some a -> nth_error hs (S k) = Some b ->
        exists (ks : list call) u1 u2, calls_from r (g_pert g) u1 ks u2 /\ h_act b = new_activities ks /\
          map (fun c => x_label (k_ctx c)) ks = nodes (in_force g a b) /\
          forall c, In c ks ->
            nbrs_of (in_force g a b) (x_label (k_ctx c)) (x_nbrs (k_ctx c)) /\
            Forall2 (fun w y => dget (h_act a) w = Some y) (x_nbrs (k_ctx c)) (x_nacts (k_ctx c)) /\
            in_edges (in_force g a b) (x_label (k_ctx c)) = Ok (x_conn (k_ctx c)) /\
            dget (h_act a) (x_label (k_ctx c)) = Some (x_cur (k_ctx c)).
  Proof.
    intros Hr Hg Hnd Hok Hcase E. destruct (evolve_calls _ _ _ _ _ _ _ _ _ _ Hr Hg Hnd Hok Hcase E) as (infn & hs & _ & Hrun & Hk).
    exists infn, hs. split; [assumption|]. intros k a b Ea Eb. destruct (Hk k a b Ea Eb) as (u & i & past & ks & u1 & u2 & _ & _ & Hc & Hf & Hn).
    apply calls_ctx in Hf. destruct Hf as [Hl Hf]. exists ks, u1, u2. repeat (split; [assumption|]). intros c Hin. destruct (Hf c Hin). auto.
  Qed.

  (** C21: the input of timestep [k + 1] *)
  Definition input_at (inp : option (@input L V A U I)) (k : nat) (i : inval I) : Prop :=
    match inp with
    | None => i = InStr "__timestep__"
    | Some (InputList l) => nth_error l k = Some (Some i)
    | Some (InputFun f) => exists u a n u', f u (Z.of_nat k + 1) a n = Ok (u', Some i)
    end.

  Lemma inputs_delivered fuel (u0 : U) n initial ts inp (g : args) r uf traj :
    g_rule g = Some r -> g_memo g = false -> NoDup (nodes n) -> topo_ok g -> (g_topo g = None \/ no_insert g \/ g_order g <> ACTIVITIES_FIRST) ->
    evolve W fuel u0 n initial ts inp g = Ok (uf, traj) ->
    exists infn hs, run_spec W infn g u0 (match initial with None => [] | Some c => to_dict W c end) n hs uf traj /\
      forall k a b, nth_error hs k = Some a -> nth_error hs (S k) = Some b ->
        exists i (ks : list call) u1 u2, input_at inp k i /\ calls_from r (g_pert g) u1 ks u2 /\ h_act b = new_activities ks /\
          map (fun c => x_label (k_ctx c)) ks = nodes (in_force g a b) /\
          forall c, In c ks -> x_time (k_ctx c) = Z.of_nat k + 1 /\ input_of W i (x_label (k_ctx c)) (x_input (k_ctx c)).
  Proof.
    intros Hr Hg Hnd Hok Hcase E. destruct (evolve_calls _ _ _ _ _ _ _ _ _ _ Hr Hg Hnd Hok Hcase E) as (infn & hs & Hin & Hrun & Hk).
    exists infn, hs. split; [assumption|]. intros k a b Ea Eb. destruct (Hk k a b Ea Eb) as (u & i & past & ks & u1 & u2 & Ei & _ & Hc & Hf & Hn).
    apply calls_ctx in Hf. destruct Hf as [Hl Hf]. exists i, ks, u1, u2. split.
    - unfold input_at. unfold get_input_function in Hin. destruct inp as [[l|f]|].
      + injection Hin as <-. unfold list_input in Ei. destruct (Z.of_nat (length l) <=? Z.of_nat k + 1 - 1); [discriminate|].
        inv_bind Ei x Ex. injection Ei as _ ->. apply of_opt_inv, py_nth_nonneg in Ex; [|lia]. replace (Z.to_nat (Z.of_nat k + 1 - 1)) with k in Ex by lia. assumption.
      + injection Hin as <-. eauto.
      + destruct ts as [m|]; [|discriminate]. injection Hin as <-. unfold timestep_input in Ei. destruct (_ =? m); [discriminate|]. congruence.
    - repeat (split; [assumption|]). intros c Hc'. destruct (Hf c Hc'). auto.
  Qed.

  (** C22 *)
  Lemma shows_at infn (g : args) u0 init n hs uf traj j s b : g_comp g = false -> run_spec W infn g u0 init n hs uf traj ->
    nth_error traj j = Some s -> nth_error hs j = Some b ->
    activities W s = Ok (if g_pact g || Nat.eqb j 0 then shown_acts (h_act b) else None).
  Proof.
    intros Hc Hrun Es Eb. destruct j as [|j].
    - rewrite (rs_first _ _ _ _ _ _ _ _ _ Hrun) in Eb. injection Eb as <-. destruct (rs_first_state _ _ _ _ _ _ _ _ _ Hrun) as (s' & Es' & E1 & _).
      assert (s' = s) by congruence. subst s'. rewrite orb_true_r. rewrite Hc in E1. apply set_acts_shown. assumption.
    - destruct (nth_error hs j) as [a|] eqn:Ea.
      2: { apply nth_error_None in Ea. assert (nth_error hs (S j) = None) by (apply nth_error_None; lia). congruence. }
      destruct (rs_step _ _ _ _ _ _ _ _ _ Hrun j a b Ea Eb) as (u & i & past & s' & _ & _ & _ & Es' & Hsa & _).
      assert (s' = s) by congruence. subst s'. unfold shows_a in Hsa. rewrite Hc in Hsa. cbn [Nat.eqb]. rewrite orb_false_r. destruct (g_pact g).
      + apply set_acts_shown. assumption.
      + unfold activities. rewrite Hsa. reflexivity.
  Qed.

  Lemma past_window fuel (u0 : U) n initial ts inp (g : args) r uf traj :
    g_rule g = Some r -> g_memo g = false -> g_comp g = false -> NoDup (nodes n) -> topo_ok g -> (g_topo g = None \/ no_insert g \/ g_order g <> ACTIVITIES_FIRST) ->
    g_past g <> [] -> evolve W fuel u0 n initial ts inp g = Ok (uf, traj) ->
    exists infn hs, run_spec W infn g u0 (match initial with None => [] | Some c => to_dict W c end) n hs uf traj /\
      forall k a b, nth_error hs k = Some a -> nth_error hs (S k) = Some b ->
        exists (ks : list call) u1 u2, calls_from r (g_pert g) u1 ks u2 /\ h_act b = new_activities ks /\
          map (fun c => x_label (k_ctx c)) ks = nodes (in_force g a b) /\
          forall c, In c ks -> exists l, x_past (k_ctx c) = Some l /\ length l = length (g_past g) /\
            forall j, (1 <= j <= length (g_past g))%nat -> exists e, nth_error l (length (g_past g) - j) = Some e /\
              (let time := x_time (k_ctx c) - 1 - Z.of_nat j in
               if 0 <=? time then exists h, nth_error hs (Z.to_nat time) = Some h /\
                                    e = (if g_pact g || (time =? 0) then shown_acts (h_act h) else None)
               else exists p, nth_error (g_past g) (Z.to_nat (Z.of_nat (length (g_past g)) + time)) = Some p /\ e = Some (to_dict W p)) /\
              (j = 1%nat -> forall v, past_activity_of (k_ctx c) v (-1) = (d <- of_opt TypeError e ;; of_opt KeyError (dget d v))).
  Proof.
    intros Hr Hg Hcomp Hnd Hok Hcase Hpne E. destruct (evolve_calls _ _ _ _ _ _ _ _ _ _ Hr Hg Hnd Hok Hcase E) as (infn & hs & _ & Hrun & Hk).
    exists infn, hs. split; [assumption|]. intros k a b Ea Eb. destruct (Hk k a b Ea Eb) as (u & i & past & ks & u1 & u2 & _ & Hp & Hc & Hf & Hn).
    apply calls_ctx in Hf. destruct Hf as [Hl Hf]. exists ks, u1, u2. repeat (split; [assumption|]). intros c Hin. specialize (Hf c Hin).
    pose proof (cf_past _ _ _ _ _ _ _ _ Hf) as Ep. pose proof (cf_time _ _ _ _ _ _ _ _ Hf) as Et. rewrite Et.
    unfold past_at in Hp. destruct (g_past g) as [|p0 ps] eqn:Eg; [congruence|]. rewrite <- Eg in *. destruct past as [l|]; [|contradiction].
    destruct Hp as [Hlen Hp]. exists l. split; [assumption|]. split; [assumption|]. intros j Hj. destruct (Hp j Hj) as (e & Ee & He).
    exists e. split; [assumption|]. split.
    - cbn zeta in *. destruct (Z.leb_spec 0 (Z.of_nat k + 1 - 1 - Z.of_nat j)) as [Hle|Hlt]; [|assumption].
      destruct He as (s & Es & Ea'). set (tau := Z.to_nat (Z.of_nat k + 1 - 1 - Z.of_nat j)) in *.
      assert (Htau : (tau < S k)%nat) by lia. rewrite nth_error_firstn_lt in Es by assumption.
      assert (Hx : (tau < length hs)%nat) by (rewrite (rs_length _ _ _ _ _ _ _ _ _ Hrun); apply nth_error_Some; congruence).
      destruct (nth_error hs tau) as [h|] eqn:Eh; [|apply nth_error_None in Eh; lia]. exists h. split; [reflexivity|].
      pose proof (shows_at _ _ _ _ _ _ _ _ _ _ _ Hcomp Hrun Es Eh) as Hs. rewrite Ea' in Hs. injection Hs as ->.
      replace (Z.of_nat k + 1 - 1 - Z.of_nat j =? 0) with (Nat.eqb tau 0); [reflexivity|].
      destruct (Nat.eqb_spec tau 0), (Z.eqb_spec (Z.of_nat k + 1 - 1 - Z.of_nat j) 0); try reflexivity; lia.
    - intros -> v. unfold past_activity_of. rewrite Ep. cbn [of_opt rbind].
      assert (Hn1 : py_nth l (-1) = Some e).
      { unfold py_nth, py_index. rewrite Hlen. destruct (length (g_past g)) as [|m] eqn:Em; [rewrite Eg in Em; discriminate|].
        change (0 <=? -1) with false. cbn [andb]. destruct (Z.leb_spec (- Z.of_nat (S m)) (-1)); [|lia]. change (-1 <? 0) with true. cbn [andb].
        rewrite <- Ee. f_equal. lia. }
      rewrite Hn1. reflexivity.
  Qed.

  (** ** C24, default keys *)
  Lemma count_is_count_occ {X} `{EqD X} (l : list X) x : count l x = count_occ eqd l x.
  Proof.
    induction l as [|y l IH]; [reflexivity|]. unfold count in *. cbn [filter count_occ]. unfold eqb at 1.
    destruct (eqd x y) as [->|Hn]; cbn [length]; [destruct (eqd y y); [|congruence]; f_equal; assumption|]. destruct (eqd y x); [congruence|assumption].
  Qed.
  Lemma multiset_eqb_perm (l1 l2 : list A) : multiset_eqb l1 l2 = true -> Permutation l1 l2.
  Proof.
    intros E. apply (Permutation_count_occ eqd). intros x. rewrite <- !count_is_count_occ. unfold multiset_eqb in E. rewrite forallb_forall in E.
    destruct (in_dec eqd x (l1 ++ l2)) as [Hin|Hn]; [apply Nat.eqb_eq, E; assumption|].
    rewrite !count_notin; [reflexivity| |]; intros Hx; apply Hn, in_or_app; auto.
  Qed.

  Lemma memo_ordered fuel u0 n initial ts inp (g : args) h : g_key g = None -> net_rot n <> None -> g_rule g = Some (stateless h) ->
    (forall x y, x_nacts x = x_nacts y -> h x = h y) ->
    evolve W fuel u0 n initial ts inp (set_memo g true) = evolve W fuel u0 n initial ts inp (set_memo g false).
  Proof.
    intros Hk Hrot Hr Hh. apply (memo_transparent W fuel u0 n initial ts inp g h Hr). rewrite Hk. unfold default_key. destruct (net_rot n); [|congruence].
    cbn. intros x y E. apply Hh, eqb_eq. assumption.
  Qed.
  Lemma memo_unordered fuel u0 n initial ts inp (g : args) h : g_key g = None -> net_rot n = None -> g_rule g = Some (stateless h) ->
    (forall x y, Permutation (x_nacts x) (x_nacts y) -> h x = h y) ->
    evolve W fuel u0 n initial ts inp (set_memo g true) = evolve W fuel u0 n initial ts inp (set_memo g false).
  Proof.
    intros Hk Hrot Hr Hh. apply (memo_transparent W fuel u0 n initial ts inp g h Hr). rewrite Hk. unfold default_key. rewrite Hrot.
    cbn. intros x y E. apply Hh, multiset_eqb_perm. assumption.
  Qed.

  (** ** C26 with compression: when the full run packs everything, so does the blanked one *)
  Definition imp_rel {X Y} (R : X -> Y -> Prop) (a : res X) (b : res Y) : Prop := forall x, a = Ok x -> exists y, b = Ok y /\ R x y.
  Lemma imp_rel_bind {X Y X' Y'} (R : X -> Y -> Prop) (Q : X' -> Y' -> Prop) m m' f f' :
    imp_rel R m m' -> (forall x y, R x y -> imp_rel Q (f x) (f' y)) -> imp_rel Q (rbind m f) (rbind m' f').
  Proof. intros Hm Hf x E. destruct m as [a|]; [|discriminate]. destruct (Hm a eq_refl) as (b & -> & Hr). apply (Hf a b Hr). exact E. Qed.
  Lemma imp_rel_same {X X' Y'} (Q : X' -> Y' -> Prop) (m : res X) f f' : (forall x, m = Ok x -> imp_rel Q (f x) (f' x)) -> imp_rel Q (rbind m f) (rbind m f').
  Proof. intros Hf x E. destruct m as [a|]; [|discriminate]. apply (Hf a eq_refl). exact E. Qed.

  Lemma record_a_imp (g : args) (pa pn : bool) a : imp_rel (fun x y => y = (if pa then x else None)) (record_activities W (set_persist g true true) a) (record_activities W (set_persist g pa pn) a).
  Proof. unfold record_activities, set_persist. cbn [g_pact g_comp]. intros x E. destruct pa; eauto. Qed.
  Lemma record_n_imp (g : args) (pa pn : bool) n : imp_rel (fun x y => y = (if pn then x else None)) (record_network W (set_persist g true true) n) (record_network W (set_persist g pa pn) n).
  Proof. unfold record_network, set_persist. cbn [g_pnet g_comp]. intros x E. destruct pn; eauto. Qed.

  Lemma ok_imp {X Y} (R : X -> Y -> Prop) x y : R x y -> imp_rel R (Ok x) (Ok y).
  Proof. intros Hr z E. injection E as <-. eauto. Qed.

  Lemma step_imp (g : args) (mk : @memokey L V A I) pa pn t inp c c' : g_past g = [] \/ pa = true -> blank_rel (BA:=BA) (BN:=BN) mk pa pn c c' ->
    imp_rel (blank_rel mk pa pn) (step W (set_persist g true true) mk t inp c) (step W (set_persist g pa pn) mk t inp c').
  Proof.
    intros Hpast (E1 & E2 & E3 & E4 & E5 & Hne & E6). unfold step. rewrite <- E1, <- E2, <- E3, <- E4, <- E5, E6.
    change (get_past W (set_persist g true true)) with (get_past W g). change (get_past W (set_persist g pa pn)) with (get_past W g).
    rewrite get_past_blanked by assumption.
    change (g_order (set_persist g true true)) with (g_order g). change (g_order (set_persist g pa pn)) with (g_order g).
    change (@evolve_topology _ _ _ _ _ _ _ _ W (set_persist g true true)) with (evolve_topology W g).
    change (@evolve_topology _ _ _ _ _ _ _ _ W (set_persist g pa pn)) with (evolve_topology W g).
    change (@evolve_activities _ _ _ _ _ _ _ _ W (set_persist g true true)) with (evolve_activities W g).
    change (@evolve_activities _ _ _ _ _ _ _ _ W (set_persist g pa pn)) with (evolve_activities W g).
    apply imp_rel_same. intros past _. destruct (g_order g).
    - apply imp_rel_same. intros s _. eapply imp_rel_bind; [apply record_a_imp|]. intros sa sa' ->.
      apply imp_rel_same. intros [u2 n2] _. eapply imp_rel_bind; [apply record_n_imp|]. intros sn sn' ->.
      apply ok_imp, blank_cfg. assumption.
    - apply imp_rel_same. intros [u1 n2] _. eapply imp_rel_bind; [apply record_n_imp|]. intros sn sn' ->.
      apply imp_rel_same. intros s _. eapply imp_rel_bind; [apply record_a_imp|]. intros sa sa' ->.
      apply ok_imp, blank_cfg. assumption.
    - apply imp_rel_same. intros [u1 n2] _. eapply imp_rel_bind; [apply record_n_imp|]. intros sn sn' ->.
      apply imp_rel_same. intros s _. eapply imp_rel_bind; [apply record_a_imp|]. intros sa sa' ->.
      apply ok_imp, blank_cfg. assumption.
  Qed.

  Lemma loop_imp (g : args) (mk : @memokey L V A I) pa pn infn fuel : g_past g = [] \/ pa = true -> forall t c c', blank_rel (BA:=BA) (BN:=BN) mk pa pn c c' ->
    imp_rel (blank_rel mk pa pn) (loop W (set_persist g true true) mk infn fuel t c) (loop W (set_persist g pa pn) mk infn fuel t c').
  Proof.
    intros Hp. induction fuel as [|f IH]; intros t c c' Hr; cbn [loop]; [intros x E; discriminate|].
    destruct Hr as (E1 & E2 & E3 & E4 & E5 & Hne & E6). rewrite <- E1, <- E2, <- E3. apply imp_rel_same. intros [u [i|]] _.
    - eapply imp_rel_bind; [apply step_imp; [assumption|]; repeat split; cbn; assumption|]. intros; apply IH; assumption.
    - apply ok_imp. cbn. repeat split; assumption.
  Qed.

  Lemma persist_flags_any fuel u0 n initial ts inp (g : args) pa pn uf traj : g_past g = [] \/ pa = true ->
    evolve W fuel u0 n initial ts inp (set_persist g true true) = Ok (uf, traj) ->
    evolve W fuel u0 n initial ts inp (set_persist g pa pn) = Ok (uf, blanked pa pn traj).
  Proof.
    intros Hp E. unfold evolve in *. cbn [set_persist g_key g_rule g_topo g_comp] in *.
    destruct (get_input_function ts inp) as [infn|]; [|discriminate]. cbn [rbind] in *.
    match goal with |- context[if ?b then _ else _] => destruct b end; [discriminate|].
    destruct (set_activities _ _ _) as [sa|]; [|discriminate]. cbn [rbind] in *. destruct (set_network _ _ _) as [sn|]; [|discriminate]. cbn [rbind] in *.
    set (mk := match g_key g with Some k => k | None => default_key n end) in *.
    match goal with |- rbind (loop _ _ _ _ _ _ ?c) _ = _ => pose proof (loop_imp g mk pa pn infn fuel Hp 1 c c) as Hl end.
    match type of Hl with ?P -> _ => assert (HP : P) by (repeat split; discriminate) end. specialize (Hl HP).
    inv_bind E c1 Ec1. injection E as <- <-. destruct (Hl _ Ec1) as (c2 & Ec2 & (E1 & _ & _ & _ & _ & _ & E6)).
    unfold set_persist in *. rewrite Ec2. cbn [rbind]. rewrite E1, E6. reflexivity.
  Qed.

  (** ** a longer run extends a shorter one *)
  Lemma loop_prefix (g : args) (mk : @memokey L V A I) n m fuel : n <= m -> forall t c c2, 1 <= t <= n ->
    loop W g mk (timestep_input m) fuel t c = Ok c2 ->
    exists c1 ss, loop W g mk (timestep_input n) fuel t c = Ok c1 /\ c_traj c2 = c_traj c1 ++ ss.
  Proof.
    intros Hnm. induction fuel as [|f IH]; intros t c c2 Ht E; [discriminate|]. destruct (Z.eq_dec t n) as [->|Hne].
    - exists (with_u c (c_u c)). destruct (loop_run W _ _ _ _ _ _ _ E) as (cs & u & Hr & _ & _ & ->).
      destruct (run_traj W _ _ _ _ _ _ Hr) as (ss & _ & Hss & _). exists ss. split; [|exact Hss].
      cbn [loop]. unfold timestep_input at 1. rewrite Z.eqb_refl. reflexivity.
    - cbn [loop] in *. unfold timestep_input at 1 in E. unfold timestep_input at 1.
      destruct (Z.eqb_spec t m) as [|]; [lia|]. destruct (Z.eqb_spec t n); [lia|]. cbn [rbind] in *.
      destruct (step W g mk t (InStr "__timestep__") (with_u c (c_u c))) as [c'|]; [|discriminate]. cbn [rbind] in *.
      apply (IH (t + 1) c' c2); [lia|assumption].
  Qed.

  Lemma evolve_prefix fuel u0 net initial n m (g : args) uf traj : 1 <= n <= m ->
    evolve W fuel u0 net initial (Some m) None g = Ok (uf, traj) ->
    exists uf', evolve W fuel u0 net initial (Some n) None g = Ok (uf', firstn (Z.to_nat n) traj).
  Proof.
    intros Hn E. assert (Hlen : forall uf' tr, evolve W fuel u0 net initial (Some n) None g = Ok (uf', tr) -> Z.of_nat (length tr) = n).
    { intros uf' tr E'. apply (evolve_length W fuel u0 net initial (Some n) None g (timestep_input n) n uf' tr eq_refl (timestep_ends n ltac:(lia)) ltac:(lia) E'). }
    unfold evolve in *. cbn [get_input_function rbind] in *.
    match goal with |- context[if ?b then _ else _] => destruct b end; [discriminate|].
    destruct (set_activities _ _ _) as [sa|]; [|discriminate]. cbn [rbind] in *. destruct (set_network _ _ _) as [sn|]; [|discriminate]. cbn [rbind] in *.
    inv_bind E c Ec. injection E as <- <-. destruct (loop_prefix g _ n m fuel ltac:(lia) 1 _ _ ltac:(lia) Ec) as (c1 & ss & E1 & Es).
    rewrite E1 in *. cbn [rbind] in *. exists (c_u c1). specialize (Hlen _ _ eq_refl). rewrite Es, firstn_app, firstn_all2 by lia.
    replace (Z.to_nat n - length (c_traj c1))%nat with 0%nat by lia. cbn [firstn]. rewrite app_nil_r. reflexivity.
  Qed.
End Proofs4.

(** ** C27 over msgpack values *)

(** labels, attributes and activities are msgpack values; the packers are those of Msgpack.v and NetCopy.v *)
Definition msg_env : env val val val (list Z) (list Z) := mkEnv
  (fun i => VInt (Z.of_nat i))
  (fun v => match v with VInt z => Some z | _ => None end)
  (fun a => a)
  (fun d => compress (VMap d))
  (fun bs => v <- decompress bs ;; match v with VMap m => Ok m | _ => Err Unmodelled end)
  net_compress net_decompress.

(** a value msgpack reproduces (tuples as lists) *)
Definition packs (v : val) : Prop :=
  everywhere well_formed v /\ everywhere in_range v /\ everywhere plain_keys v /\ height v <= 511.

Definition norm_acts (d : dict val val) : dict val val := map (fun kv => (fst kv, tuples_to_lists (snd kv))) d.

Lemma pack_acts d : packs (VMap d) -> exists b, e_pack_a msg_env d = Ok b /\ e_unpack_a msg_env b = Ok (norm_acts d).
Proof.
  intros (Hwf & Hr & Hk & Hh). destruct (roundtrip _ Hwf) as (Hc & Hd & _). destruct (proj2 Hc (conj Hh Hr)) as [bs E].
  exists bs. split; [exact E|]. cbn [e_unpack_a msg_env]. rewrite (Hd bs E Hk). cbn [rbind tuples_to_lists]. f_equal. unfold norm_acts.
  apply map_ext_in. intros [k v] Hin. cbn [fst snd]. f_equal.
  cbn in Hk. destruct Hk as [Hk _]. specialize (Hk k (in_map fst _ _ Hin)). destruct k; try reflexivity; contradiction.
Qed.

Lemma norm_acts_id d : everywhere no_tuple (VMap d) -> norm_acts d = d.
Proof.
  intros Ht. pose proof (norm_id _ Ht) as E. cbn in E. injection E as E. unfold norm_acts. rewrite <- (map_id d) at 2.
  apply map_ext_in. intros [k v] Hin. cbn. f_equal.
  assert (Hv : forall d', map (fun kv : val * val => (tuples_to_lists (fst kv), tuples_to_lists (snd kv))) d' = d' -> In (k, v) d' -> tuples_to_lists v = v).
  { clear. induction d' as [|[a b] d' IH]; cbn; [contradiction|]. intros E [Hin|Hin]; injection E as E1 E2 E3; [congruence|]. apply IH; assumption. }
  apply (Hv d E Hin).
Qed.

Lemma pack_net n : packs (net_val n) -> everywhere no_tuple (net_val n) -> exists b, e_pack_n msg_env n = Ok b /\ e_unpack_n msg_env b = Ok (copy n).
Proof.
  intros (Hwf & Hr & Hk & Hh) Ht. pose proof (net_copy_ok n Hwf Hr Hk Ht Hh) as E. unfold net_copy in E. inv_bind E bs Eb. exists bs. auto.
Qed.

Lemma compressed_evolve {U I} fuel u0 n initial ts inp (g : @args val val val U I) uf traj :
  evolve msg_env fuel u0 n initial ts inp (set_comp g false) = Ok (uf, traj) ->
  (forall s, In s traj ->
     (forall a, activities msg_env s = Ok (Some a) -> packs (VMap a) /\ (g_past g = [] \/ everywhere no_tuple (VMap a))) /\
     (forall m, state_network msg_env s = Ok (Some m) -> packs (net_val m) /\ everywhere no_tuple (net_val m))) ->
  exists traj', evolve msg_env fuel u0 n initial ts inp (set_comp g true) = Ok (uf, traj') /\
    Forall2 (fun s s' => exists a m, activities msg_env s = Ok a /\ activities msg_env s' = Ok (option_map norm_acts a) /\
                                     state_network msg_env s = Ok m /\ state_network msg_env s' = Ok (option_map copy m)) traj traj'.
Proof.
  intros E Hs.
  apply (compression_transparent msg_env fuel u0 n initial ts inp g
    (fun a => packs (VMap a) /\ (g_past g = [] \/ everywhere no_tuple (VMap a))) norm_acts
    (fun m => packs (net_val m) /\ everywhere no_tuple (net_val m)) copy uf traj).
  - intros a [Ha _]. apply pack_acts. assumption.
  - intros m [Hm Ht]. apply pack_net; assumption.
  - destruct (g_past g) eqn:Eg; [left; reflexivity|right]. intros a [_ [Hx|Ht]]; [discriminate|]. apply norm_acts_id. assumption.
  - exact E.
  - intros s Hin. destruct (Hs s Hin) as [H1 H2]. split.
    + intros a Ea. apply H1. unfold activities. rewrite Ea. reflexivity.
    + intros m Em. apply H2. unfold state_network. rewrite Em. reflexivity.
Qed.
