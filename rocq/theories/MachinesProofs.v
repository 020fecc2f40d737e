(** * Proofs: machines on one node *)
From Coq Require Import Ascii.
From Verif Require Import Py PyFacts ListFacts Network Topology Evolve EvolveSpec EvolveProofs EvolveStatic Machines.
Open Scope string_scope.
Open Scope list_scope.
Open Scope Z_scope.

Section OneNode.
  Context {A U I BA BN : Type} `{EqD A}.
  Notation env := (env Z Z A BA BN).
  Notation ctx := (node_ctx Z Z A I).
  Notation args := (@args Z Z A U I).
  Notation acts := (dict Z A).
  Notation state := (state Z Z A BA BN).
  Notation memokey := (@memokey Z Z A I).
  Notation raw_of S := (match S with [] => None | _ => Some (Raw S) end).

  Variable W : env.
  Variables (g : args) (r : @rule Z Z A U I) (F : U -> A -> option (nodein I) -> res (U * A)).
  Hypothesis Hst : static g r.
  (** the rule looks only at the user state, the activity and the input *)
  Hypothesis HF : forall u x, r u x = (' (u', a) <- F u (x_cur x) (x_input x) ;; Ok (u', mkOut a [] [])).

  Lemma one_sweep (mk : memokey) t i u a (tab : list (mk_K mk * A)) past ni : node_input W i 0 = Ok ni ->
    do_activity_rule W g mk r t i u [(0, a)] tab one_node past (Some (get_neighbourhood_map one_node)) =
      (' (u', a') <- F u a ni ;; Ok (mkNst u' [(0, a')] tab [] [])).
  Proof.
    intros Hi. destruct Hst as (Hr & Ht & Hp & Hm & Hc & Hpa). unfold do_activity_rule. change (nodes one_node) with [0]. cbn [rfold]. unfold node_step, node_context.
    assert (Ein : exists conn, in_edges one_node 0 = Ok conn) by (eexists; vm_compute; reflexivity). destruct Ein as [conn ->]. cbn [rbind get_neighbour_labels].
    assert (Eg : dget (get_neighbourhood_map one_node) 0 = Some [0]) by (vm_compute; reflexivity). rewrite Eg.
    change (dget [(0, a)] 0) with (Some a). cbn [of_opt rbind rmap]. change (dget [(0, a)] 0) with (Some a). cbn [of_opt rbind rmap]. rewrite Hi. cbn [rbind].
    unfold apply_rule. rewrite Hm, HF. cbn [x_cur x_input s_u s_tab].
    destruct (F u a ni) as [[u' a']|e]; cbn [rbind]; [|reflexivity]. rewrite Hp. cbn. reflexivity.
  Qed.

  Definition cells (l : list A) : list acts := map (fun a => [(0, a)]) l.

  (** the run of the machine on the inputs chosen by [ask] *)
  Inductive runs_to (infn : @input_fn Z Z A U I) : Z -> U -> A -> U -> list A -> Prop :=
  | rt_stop t u a u' : infn u t [(0, a)] one_node = Ok (u', None) -> runs_to infn t u a u' [a]
  | rt_go t u a u1 i ni u2 a' uf l : infn u t [(0, a)] one_node = Ok (u1, Some i) -> node_input W i 0 = Ok ni -> F u1 a ni = Ok (u2, a') ->
      runs_to infn (t + 1) u2 a' uf l -> runs_to infn t u a uf (a :: l).
  Inductive fails_with (infn : @input_fn Z Z A U I) (e : exn) : nat -> Z -> U -> A -> Prop :=
  | fw_now t u a u1 i ni : infn u t [(0, a)] one_node = Ok (u1, Some i) -> node_input W i 0 = Ok ni -> F u1 a ni = Err e -> fails_with infn e 0 t u a
  | fw_go k t u a u1 i ni u2 a' : infn u t [(0, a)] one_node = Ok (u1, Some i) -> node_input W i 0 = Ok ni -> F u1 a ni = Ok (u2, a') ->
      fails_with infn e k (t + 1) u2 a' -> fails_with infn e (S k) t u a.

  Lemma one_step (mk : memokey) t i u a (tab : list (mk_K mk * A)) hist traj ni u' a' :
    Forall2 (fun s S => st_act s = raw_of S) traj (hist ++ [[(0, a)]]) -> Z.of_nat (length hist) + 1 = t -> node_input W i 0 = Ok ni -> F u a ni = Ok (u', a') ->
    exists st, step W g mk t i (mkCfg u [(0, a)] one_node tab (Some (get_neighbourhood_map one_node)) traj) =
      Ok (mkCfg u' [(0, a')] one_node tab (Some (get_neighbourhood_map one_node)) (traj ++ [st])) /\ st_act st = Some (Raw [(0, a')]).
  Proof.
    intros Hf Hh Hi EF. pose proof (one_sweep mk t i u a tab (past_of W (g_past g) (hist ++ [[(0, a)]])) ni Hi) as E. rewrite EF in E. cbn [rbind] in E.
    destruct (static_step W g mk r t i u [(0, a)] one_node tab hist traj _ Hst Hf Hh E eq_refl eq_refl) as (st & Es & Hs). exists st. split; assumption.
  Qed.

  Lemma one_loop infn (mk : memokey) t u a uf l : runs_to infn t u a uf l -> forall fuel (tab : list (mk_K mk * A)) hist traj, (length l <= fuel)%nat -> Z.of_nat (length hist) + 1 = t ->
    Forall2 (fun s S => st_act s = raw_of S) traj (hist ++ [[(0, a)]]) ->
    exists c, loop W g mk infn fuel t (mkCfg u [(0, a)] one_node tab (Some (get_neighbourhood_map one_node)) traj) = Ok c /\ c_u c = uf /\
      Forall2 (fun s S => st_act s = raw_of S) (c_traj c) (hist ++ cells l).
  Proof.
    induction 1 as [t u a u' E|t u a u1 i ni u2 a' uf l E Hi EF Hrun IH]; intros fuel tab hist traj Hfu Hh Hf; (destruct fuel as [|fuel]; [cbn in Hfu; lia|]); cbn [loop c_u c_act c_net]; rewrite E; cbn [rbind].
    - eexists. split; [reflexivity|]. split; [reflexivity|exact Hf].
    - unfold with_u. cbn [c_act c_net c_tab c_map c_traj]. destruct (one_step mk t i u1 a tab hist traj ni u2 a' Hf Hh Hi EF) as (st & Es & Hs). rewrite Es. cbn [rbind].
      destruct (IH fuel tab (hist ++ [[(0, a)]]) (traj ++ [st])) as (c & Ec & Eu & Hc).
      + cbn in Hfu. lia.
      + rewrite app_length. cbn [length]. lia.
      + apply Forall2_app; [assumption|]. constructor; [assumption|constructor].
      + exists c. split; [assumption|]. split; [assumption|]. rewrite <- app_assoc in Hc. exact Hc.
  Qed.

  Lemma one_fail infn (mk : memokey) e k t u a : fails_with infn e k t u a -> forall fuel (tab : list (mk_K mk * A)) hist traj, (k < fuel)%nat -> Z.of_nat (length hist) + 1 = t ->
    Forall2 (fun s S => st_act s = raw_of S) traj (hist ++ [[(0, a)]]) ->
    loop W g mk infn fuel t (mkCfg u [(0, a)] one_node tab (Some (get_neighbourhood_map one_node)) traj) = Err e.
  Proof.
    induction 1 as [t u a u1 i ni E Hi EF|k t u a u1 i ni u2 a' E Hi EF Hrun IH]; intros fuel tab hist traj Hfu Hh Hf; (destruct fuel as [|fuel]; [lia|]); cbn [loop c_u c_act c_net]; rewrite E; cbn [rbind];
      unfold with_u; cbn [c_act c_net c_tab c_map c_traj].
    - pose proof (one_sweep mk t i u1 a tab (past_of W (g_past g) (hist ++ [[(0, a)]])) ni Hi) as Es. rewrite EF in Es. cbn [rbind] in Es.
      rewrite (static_step_err W g mk r t i u1 [(0, a)] one_node tab hist traj e Hst Hf Hh Es). reflexivity.
    - destruct (one_step mk t i u1 a tab hist traj ni u2 a' Hf Hh Hi EF) as (st & Es & Hs). rewrite Es. cbn [rbind].
      apply (IH fuel tab (hist ++ [[(0, a)]]) (traj ++ [st])); [lia|rewrite app_length; cbn [length]; lia|].
      apply Forall2_app; [assumption|]. constructor; [assumption|constructor].
  Qed.

  (** never stopping *)
  Lemma one_forever infn (mk : memokey) (P : Z -> U -> A -> Prop) :
    (forall t u a, P t u a -> exists u1 i ni u2 a', infn u t [(0, a)] one_node = Ok (u1, Some i) /\ node_input W i 0 = Ok ni /\ F u1 a ni = Ok (u2, a') /\ P (t + 1) u2 a') ->
    forall fuel t u a (tab : list (mk_K mk * A)) hist traj, P t u a -> Z.of_nat (length hist) + 1 = t -> Forall2 (fun s S => st_act s = raw_of S) traj (hist ++ [[(0, a)]]) ->
    loop W g mk infn fuel t (mkCfg u [(0, a)] one_node tab (Some (get_neighbourhood_map one_node)) traj) = Err OutOfFuel.
  Proof.
    intros HP. induction fuel as [|fuel IH]; intros t u a tab hist traj Hp Hh Hf; [reflexivity|]. destruct (HP t u a Hp) as (u1 & i & ni & u2 & a' & E & Hi & EF & Hp').
    cbn [loop c_u c_act c_net]. rewrite E. cbn [rbind]. unfold with_u. cbn [c_act c_net c_tab c_map c_traj].
    destruct (one_step mk t i u1 a tab hist traj ni u2 a' Hf Hh Hi EF) as (st & Es & Hs). rewrite Es. cbn [rbind].
    apply (IH (t + 1) u2 a' tab (hist ++ [[(0, a)]]) (traj ++ [st])); [assumption|rewrite app_length; cbn [length]; lia|]. apply Forall2_app; [assumption|]. constructor; [assumption|constructor].
  Qed.

  Lemma one_evolve fuel u0 a inp ts infn : e_lab W 0 = 0 -> get_input_function ts inp = Ok infn ->
    exists sn mk, evolve W fuel u0 one_node (Some (CList [a])) ts inp g =
      (c <- loop W g mk infn fuel 1 (mkCfg u0 [(0, a)] one_node [] (Some (get_neighbourhood_map one_node)) [mkState (Some (Raw [(0, a)])) sn]) ;; Ok (c_u c, c_traj c)).
  Proof.
    intros Hlab Hin. destruct Hst as (Hr & Ht & Hp & Hm & Hc & Hpa). unfold evolve. rewrite Hin. cbn [rbind].
    assert (Ed : to_dict W (CList [a]) = [(0, a)]) by (unfold to_dict, enumerate; cbn; rewrite Hlab; reflexivity). rewrite Ed. change (net_len one_node) with 1%nat. cbn [length Nat.eqb negb andb].
    rewrite Hc, Ht. cbn [set_activities rbind]. change (set_network W false one_node) with (Ok (Some (Raw one_node)) : res (option (stored (network Z Z) BN))). cbn [rbind].
    eexists. eexists. reflexivity.
  Qed.

  Definition shows_list (traj : list state) (l : list A) : Prop := Forall2 (fun st a => activities W st = Ok (Some [(0, a)])) traj l.

  Theorem one_ok fuel u0 a inp ts infn uf l : e_lab W 0 = 0 -> get_input_function ts inp = Ok infn -> runs_to infn 1 u0 a uf l -> (length l <= fuel)%nat ->
    exists traj, evolve W fuel u0 one_node (Some (CList [a])) ts inp g = Ok (uf, traj) /\ shows_list traj l.
  Proof.
    intros Hlab Hin Hrun Hfu. destruct (one_evolve fuel u0 a inp ts infn Hlab Hin) as (sn & mk & ->).
    destruct (one_loop infn mk 1 u0 a uf l Hrun fuel [] [] [mkState (Some (Raw [(0, a)])) sn] Hfu eq_refl) as (c & Ec & Eu & Hc); [constructor; [reflexivity|constructor]|].
    rewrite Ec. cbn [rbind]. exists (c_traj c). rewrite Eu. split; [reflexivity|]. cbn [app] in Hc. unfold shows_list. revert Hc. generalize (c_traj c). clear. induction l as [|x l IH]; intros tr Hc; inversion Hc; subst; constructor; auto.
    unfold activities. match goal with H : st_act _ = _ |- _ => rewrite H end. reflexivity.
  Qed.
  Theorem one_err fuel u0 a inp ts infn e k : e_lab W 0 = 0 -> get_input_function ts inp = Ok infn -> fails_with infn e k 1 u0 a -> (k < fuel)%nat ->
    evolve W fuel u0 one_node (Some (CList [a])) ts inp g = Err e.
  Proof.
    intros Hlab Hin Hrun Hfu. destruct (one_evolve fuel u0 a inp ts infn Hlab Hin) as (sn & mk & ->).
    rewrite (one_fail infn mk e k 1 u0 a Hrun fuel [] [] _ Hfu eq_refl); [reflexivity|]. constructor; [reflexivity|constructor].
  Qed.
  Theorem one_diverges fuel u0 a inp ts infn (P : Z -> U -> A -> Prop) : e_lab W 0 = 0 -> get_input_function ts inp = Ok infn -> P 1 u0 a ->
    (forall t u a, P t u a -> exists u1 i ni u2 a', infn u t [(0, a)] one_node = Ok (u1, Some i) /\ node_input W i 0 = Ok ni /\ F u1 a ni = Ok (u2, a') /\ P (t + 1) u2 a') ->
    evolve W fuel u0 one_node (Some (CList [a])) ts inp g = Err OutOfFuel.
  Proof.
    intros Hlab Hin Hp HP. destruct (one_evolve fuel u0 a inp ts infn Hlab Hin) as (sn & mk & ->).
    rewrite (one_forever infn mk P HP fuel 1 u0 a [] [] _ Hp eq_refl); [reflexivity|]. constructor; [reflexivity|constructor].
  Qed.
End OneNode.

(** ** machines reading a word *)
Section Words.
  Context {U I BA BN : Type}.
  Notation env := (env Z Z Z BA BN).
  Variables (W : env) (F : U -> Z -> option (nodein I) -> res (U * Z)).
  Hypothesis Hidx : e_idx W 0 = Some 0.

  Fixpoint feed (cs : list ascii) (u : U) (a : Z) : res (U * list Z) :=
    match cs with
    | [] => Ok (u, [a])
    | c :: cs' => ' (u', a') <- F u a (Some (NStr (String c ""))) ;; ' (uf, l) <- feed cs' u' a' ;; Ok (uf, a :: l)
    end.

  Lemma char_input c : node_input (I := I) W (InStr (String c "")) 0 = Ok (Some (NStr (String c ""))).
  Proof.
    unfold node_input. assert (E : String.eqb (String c "") "__timestep__" = false) by (cbn [String.eqb]; destruct (Ascii.eqb c "_"); reflexivity). rewrite E, Hidx. reflexivity.
  Qed.

  Lemma events_at (s : string) (j : nat) c cs (u : U) (a : dict Z Z) (n : network Z Z) : skipn j (list_ascii_of_string s) = c :: cs ->
    list_input (events (I := I) s) u (Z.of_nat j + 1) a n = Ok (u, Some (InStr (String c ""))) /\ skipn (S j) (list_ascii_of_string s) = cs.
  Proof.
    intros E. assert (En : nth_error (list_ascii_of_string s) j = Some c) by (rewrite <- (Nat.add_0_r j), <- skipn_nth, E; reflexivity).
    assert (Hj : (j < length (list_ascii_of_string s))%nat) by (apply nth_error_Some; congruence). split.
    - unfold list_input, events. rewrite map_length. destruct (Z.leb_spec (Z.of_nat (length (list_ascii_of_string s))) (Z.of_nat j + 1 - 1)); [lia|].
      replace (Z.of_nat j + 1 - 1) with (Z.of_nat j) by lia. unfold py_nth, py_index. rewrite map_length. destruct (Z.leb_spec 0 (Z.of_nat j)); [|lia].
      destruct (Z.ltb_spec (Z.of_nat j) (Z.of_nat (length (list_ascii_of_string s)))); [|lia]. cbn [andb]. rewrite Nat2Z.id, nth_error_map, En. reflexivity.
    - clear - E. revert cs c E. generalize (list_ascii_of_string s). induction j as [|j IH]; intros l cs c E; [cbn in E; subst; reflexivity|]. destruct l as [|x l]; [discriminate|]. cbn [skipn] in *. eapply IH. exact E.
  Qed.
  Lemma events_end (s : string) (j : nat) (u : U) (a : dict Z Z) (n : network Z Z) : skipn j (list_ascii_of_string s) = [] ->
    list_input (events (I := I) s) u (Z.of_nat j + 1) a n = Ok (u, None).
  Proof.
    intros E. assert (Hj : (length (list_ascii_of_string s) <= j)%nat) by (apply (f_equal (@length ascii)) in E; rewrite skipn_length in E; cbn in E; lia).
    unfold list_input, events. rewrite map_length. destruct (Z.leb_spec (Z.of_nat (length (list_ascii_of_string s))) (Z.of_nat j + 1 - 1)); [reflexivity|lia].
  Qed.

  Lemma feed_ok s cs : forall j u a uf l, skipn j (list_ascii_of_string s) = cs -> feed cs u a = Ok (uf, l) -> runs_to W F (list_input (events s)) (Z.of_nat j + 1) u a uf l.
  Proof.
    induction cs as [|c cs IH]; intros j u a uf l Hj E; cbn [feed] in E.
    - injection E as <- <-. apply rt_stop. apply events_end. assumption.
    - destruct (F u a (Some (NStr (String c "")))) as [[u' a']|e] eqn:EF; [|discriminate]. cbn [rbind] in E. destruct (feed cs u' a') as [[uf' l']|e] eqn:Ec; [|discriminate]. injection E as <- <-.
      destruct (events_at s j c cs u [(0, a)] one_node Hj) as [E1 E2]. eapply rt_go; [exact E1|apply char_input|exact EF|]. replace (Z.of_nat j + 1 + 1) with (Z.of_nat (S j) + 1) by lia. apply IH; assumption.
  Qed.
  Lemma feed_err s cs : forall j u a e, skipn j (list_ascii_of_string s) = cs -> feed cs u a = Err e -> exists k, (k < length cs)%nat /\ fails_with W F (list_input (events s)) e k (Z.of_nat j + 1) u a.
  Proof.
    induction cs as [|c cs IH]; intros j u a e Hj E; cbn [feed] in E; [discriminate|].
    destruct (events_at s j c cs u [(0, a)] one_node Hj) as [E1 E2].
    destruct (F u a (Some (NStr (String c "")))) as [[u' a']|e'] eqn:EF; cbn [rbind] in E.
    - destruct (feed cs u' a') as [[uf' l']|e'] eqn:Ec; [discriminate|]. cbn [rbind] in E. injection E as <-. destruct (IH (S j) u' a' e' E2 Ec) as (k & Hk & Hf).
      exists (S k). split; [cbn; lia|]. eapply fw_go; [exact E1|apply char_input|exact EF|]. replace (Z.of_nat j + 1 + 1) with (Z.of_nat (S j) + 1) by lia. assumption.
    - injection E as <-. exists 0%nat. split; [cbn; lia|]. eapply fw_now; [exact E1|apply char_input|exact EF].
  Qed.
  Lemma feed_length cs : forall u a uf l, feed cs u a = Ok (uf, l) -> length l = S (length cs).
  Proof.
    induction cs as [|c cs IH]; intros u a uf l E; cbn [feed] in E; [injection E as <- <-; reflexivity|].
    destruct (F u a (Some (NStr (String c "")))) as [[u' a']|e]; [|discriminate]. cbn [rbind] in E. destruct (feed cs u' a') as [[uf' l']|e] eqn:Ec; [|discriminate]. injection E as <- <-. cbn. f_equal. eapply IH. exact Ec.
  Qed.
End Words.

(** ** the pushdown automaton *)
Definition stack (k : nat) : list string := "Z" :: repeat "a" k.
Definition pda_F {I} (st : list string) (q : Z) (inp : option (nodein I)) : res (list string * Z) :=
  ' (st', o) <- pda_rule st (mkCtx (L := Z) (V := Z) (I := I) 0 0 [] [] [] [] q None inp) ;; Ok (st', o_act o).

Lemma pda_rule_F {I} st (x : node_ctx Z Z Z I) : pda_rule st x = (' (u', a) <- pda_F st (x_cur x) (x_input x) ;; Ok (u', mkOut a [] [])).
Proof.
  unfold pda_F, pda_rule, pda_case, input_is. cbn [x_cur x_input].
  repeat match goal with |- context[if ?b then _ else _] => destruct b; cbn [rbind]; try reflexivity | |- context[of_opt IndexError ?o] => destruct o; cbn [of_opt rbind]; try reflexivity end.
Qed.

Definition nl : ascii := ascii_of_nat 10.
Definition delta (q : Z) (k : nat) (c : ascii) : option (Z * nat) :=
  if q =? 0 then if Ascii.eqb c "a" then Some (1, S k) else None
  else if q =? 1 then if Ascii.eqb c "a" then Some (1, S k) else if Ascii.eqb c "b" then Some (2, pred k) else None
  else if q =? 2 then match k with O => if Ascii.eqb c nl then Some (3, O) else None | S k' => if Ascii.eqb c "b" then Some (2, k') else None end
  else None.
Definition reach (q : Z) (k : nat) : Prop := q = 0 /\ k = 0%nat \/ q = 1 /\ (1 <= k)%nat \/ q = 2 \/ q = 3 /\ k = 0%nat.

Lemma stack_S k : stack (S k) = stack k ++ ["a"].
Proof. unfold stack. cbn [repeat app]. f_equal. induction k as [|k IH]; [reflexivity|]. cbn. f_equal. exact IH. Qed.
Lemma top_last (l : list string) x : py_nth (l ++ [x]) (-1) = Some x.
Proof.
  unfold py_nth, py_index. rewrite app_length. cbn [length]. destruct (Z.leb_spec (- Z.of_nat (length l + 1)) (-1)); [|lia]. cbn.
  replace (Z.to_nat (-1 + Z.of_nat (length l + 1))) with (length l) by lia. rewrite nth_error_app2, Nat.sub_diag by lia. reflexivity.
Qed.
Lemma top_stack k : py_nth (stack k) (-1) = Some (match k with O => "Z" | S _ => "a" end).
Proof. destruct k as [|k]; [reflexivity|]. rewrite stack_S. apply top_last. Qed.
Lemma char_eqb c d : String.eqb (String c "") (String d "") = Ascii.eqb c d.
Proof. cbn [String.eqb]. destruct (Ascii.eqb c d); reflexivity. Qed.

Lemma pda_delta {I} q k c : reach q k ->
  pda_F (I := I) (stack k) q (Some (NStr (String c ""))) = match delta q k c with Some (q', k') => Ok (stack k', q') | None => Err (Raise "input rejected") end.
Proof.
  intros Hr. unfold pda_F, pda_rule, pda_case, input_is. cbn [x_cur x_input]. unfold newline. fold nl. rewrite !char_eqb, !top_stack. unfold delta.
  assert (Hab : Ascii.eqb c "a" = true -> Ascii.eqb c "b" = false) by (intros E; apply Ascii.eqb_eq in E; subst; reflexivity).
  assert (Hbn : Ascii.eqb c "b" = true -> Ascii.eqb c nl = false) by (intros E; apply Ascii.eqb_eq in E; subst; reflexivity).
  destruct Hr as [[-> ->]|[[-> Hk]|[->|[-> ->]]]]; cbn [Z.eqb Pos.eqb andb rbind].
  - destruct (Ascii.eqb c "a"); reflexivity.
  - destruct k as [|k]; [lia|]. destruct (Ascii.eqb c "a") eqn:Ea.
    + cbn [of_opt rbind]. cbn. f_equal. f_equal. rewrite (stack_S (S k)). reflexivity.
    + cbn [rbind]. destruct (Ascii.eqb c "b"); [|reflexivity]. cbn [of_opt rbind]. cbn -[removelast stack]. rewrite stack_S, removelast_last. reflexivity.
  - destruct k as [|k].
    + destruct (Ascii.eqb c "b") eqn:Eb; [rewrite (Hbn eq_refl); reflexivity|]. cbn [rbind]. destruct (Ascii.eqb c nl); reflexivity.
    + destruct (Ascii.eqb c "b") eqn:Eb; cbn [of_opt rbind].
      * cbn -[removelast stack]. rewrite stack_S, removelast_last. reflexivity.
      * destruct (Ascii.eqb c nl); reflexivity.
  - reflexivity.
Qed.
Lemma delta_reach q k c q' k' : reach q k -> delta q k c = Some (q', k') -> reach q' k'.
Proof.
  intros Hr E. unfold delta in E. unfold reach. destruct Hr as [[-> ->]|[[-> Hk]|[->|[-> ->]]]]; cbn [Z.eqb Pos.eqb] in E.
  - destruct (Ascii.eqb c "a"); [injection E as <- <-; right; left; split; [reflexivity|lia]|discriminate].
  - destruct (Ascii.eqb c "a"); [injection E as <- <-; right; left; split; [reflexivity|lia]|]. destruct (Ascii.eqb c "b"); [injection E as <- <-; auto|discriminate].
  - destruct k as [|k]; [destruct (Ascii.eqb c nl)|destruct (Ascii.eqb c "b")]; try discriminate; injection E as <- <-; auto 10.
  - discriminate.
Qed.

(** the words that lead from (q, k) to the accepting state *)
Definition complete (q : Z) (k : nat) (w : list ascii) : Prop :=
  if q =? 0 then exists n, (1 <= n)%nat /\ w = repeat "a"%char n ++ repeat "b"%char n ++ [nl]
  else if q =? 1 then exists j, w = repeat "a"%char j ++ repeat "b"%char (k + j) ++ [nl]
  else if q =? 2 then w = repeat "b"%char k ++ [nl]
  else w = [].

Lemma complete_step q k c w : reach q k -> (complete q k (c :: w) <-> exists q' k', delta q k c = Some (q', k') /\ complete q' k' w).
Proof.
  intros Hr. unfold delta, complete at 1. destruct Hr as [[-> ->]|[[-> Hk]|[->|[-> ->]]]]; cbn [Z.eqb Pos.eqb].
  - split.
    + intros (n & Hn & E). destruct n as [|n]; [lia|]. cbn [repeat app] in E. injection E as -> ->. exists 1, 1%nat. split; [reflexivity|]. exists n. reflexivity.
    + intros (q' & k' & E & Hc). destruct (Ascii.eqb_spec c "a"); [|discriminate]. injection E as <- <-. destruct Hc as (j & ->). exists (S j). split; [lia|]. subst. reflexivity.
  - split.
    + intros (j & E). destruct j as [|j].
      * rewrite Nat.add_0_r in E. destruct k as [|k]; [lia|]. cbn [repeat app] in E. injection E as -> ->. exists 2, k. split; reflexivity.
      * cbn [repeat app] in E. injection E as -> ->. exists 1, (S k). split; [reflexivity|]. exists j. do 2 f_equal. f_equal. lia.
    + intros (q' & k' & E & Hc). destruct (Ascii.eqb_spec c "a").
      * injection E as <- <-. destruct Hc as (j & ->). exists (S j). subst. cbn [repeat app]. f_equal. do 2 f_equal. f_equal. lia.
      * destruct (Ascii.eqb_spec c "b"); [|discriminate]. injection E as <- <-. cbn in Hc. exists 0%nat. subst. destruct k as [|k]; [lia|]. rewrite Nat.add_0_r. reflexivity.
  - destruct k as [|k]; cbn [repeat app].
    + split.
      * intros E. injection E as -> ->. exists 3, 0%nat. split; reflexivity.
      * intros (q' & k' & E & Hc). destruct (Ascii.eqb_spec c nl); [|discriminate]. injection E as <- <-. cbn in Hc. subst. reflexivity.
    + split.
      * intros E. injection E as -> ->. exists 2, k. split; reflexivity.
      * intros (q' & k' & E & Hc). destruct (Ascii.eqb_spec c "b"); [|discriminate]. injection E as <- <-. cbn in Hc. subst. reflexivity.
  - split; [discriminate|]. intros (q' & k' & E & _). discriminate.
Qed.
Lemma complete_some q k : reach q k -> exists w, complete q k w.
Proof.
  unfold complete. intros [[-> ->]|[[-> Hk]|[->|[-> ->]]]]; cbn [Z.eqb Pos.eqb]; eexists; try reflexivity; [exists 1%nat; split; [lia|reflexivity]|exists 0%nat; reflexivity].
Qed.
Lemma complete_nil q k : reach q k -> (complete q k [] <-> q = 3).
Proof.
  unfold complete. intros [[-> ->]|[[-> Hk]|[->|[-> ->]]]]; cbn [Z.eqb Pos.eqb]; split; try discriminate; try reflexivity.
  - intros (n & Hn & E). destruct n; [lia|discriminate].
  - intros (j & E). destruct j; [|discriminate]. cbn [repeat app] in E. destruct (repeat "b"%char (k + 0)); discriminate.
  - destruct (repeat "b"%char k); discriminate.
Qed.

(** what happens to a word: rejected, or a path of the automaton *)
Lemma pda_feed {I} cs : forall q k, reach q k ->
  (exists uf l qf kf, feed (I := I) pda_F cs (stack k) q = Ok (uf, l) /\ uf = stack kf /\ last l 0 = qf /\ reach qf kf /\ forall w, complete q k (cs ++ w) <-> complete qf kf w) \/
  (feed (I := I) pda_F cs (stack k) q = Err (Raise "input rejected") /\ forall w, ~ complete q k (cs ++ w)).
Proof.
  induction cs as [|c cs IH]; intros q k Hr; cbn [feed app].
  - left. exists (stack k), [q], q, k. repeat split; auto.
  - rewrite pda_delta by assumption. destruct (delta q k c) as [[q' k']|] eqn:E; cbn [rbind].
    + pose proof (delta_reach _ _ _ _ _ Hr E) as Hr'.
      assert (Hiff : forall w, complete q k (c :: w) <-> complete q' k' w).
      { intros w. rewrite complete_step by assumption. rewrite E. split; [intros (? & ? & E1 & Hc); injection E1 as <- <-; assumption|eauto]. }
      destruct (IH q' k' Hr') as [(uf & l & qf & kf & Ef & Eu & El & Hf & Hc)|[Ef Hc]]; rewrite Ef; cbn [rbind].
      * left. exists uf, (q :: l), qf, kf. split; [reflexivity|]. split; [assumption|]. split; [|split; [assumption|intros w; rewrite Hiff; apply Hc]].
        apply feed_length in Ef. destruct l; [discriminate|exact El].
      * right. split; [reflexivity|]. intros w. rewrite Hiff. apply Hc.
    + right. split; [reflexivity|]. intros w Hc. apply complete_step in Hc; [|assumption]. destruct Hc as (? & ? & E1 & _). congruence.
Qed.
