(** * Proofs about the Turing machines *)
From Verif Require Import Py PyFacts ListFacts Network Topology TopologySpec TopologyProofs TopologyProofs4.
From Verif Require Import Evolve EvolveSpec EvolveProofs EvolveProofs2 EvolveProofs3 EvolveStatic Utils UtilsProofs TuringSpec Turing.
Open Scope string_scope.
Open Scope list_scope.
Open Scope Z_scope.

Lemma upd_nth_split {X} (l : list X) k f x : nth_error l k = Some x -> upd_nth l k f = firstn k l ++ f x :: skipn (k + 1) l.
Proof.
  revert l. induction k as [|k IH]; intros [|y l] E; try discriminate; cbn in *; [injection E as ->; destruct l; reflexivity|]. f_equal. apply IH. assumption.
Qed.

Section Both.
  Context {Q S : Type} `{EqD Q} `{EqD S}.
  Context (table : dict Q (dict S (Q * S * Z))).

  Definition good (c : conf Q S) : Prop := 0 <= cf_p c < Z.of_nat (length (cf_tape c)).

  Lemma lookup_entry q s : lookup table q s = match entry table q s with Some x => Ok x | None => Err (Raise "no rule defined") end.
  Proof. unfold lookup, entry. destruct (dget table q) as [row|]; [|reflexivity]. destruct (dget row s); reflexivity. Qed.

  Lemma next_good c c' : good c -> next table c = Some c' -> good c' /\ length (cf_tape c') = length (cf_tape c).
  Proof.
    intros Hg E. unfold next in E. destruct (nth_error (cf_tape c) (Z.to_nat (cf_p c))) as [s|] eqn:En; [|discriminate].
    destruct (entry table (cf_q c) s) as [[[q' s'] d]|]; [|discriminate]. destruct (move d) as [m|]; [|discriminate]. injection E as <-. unfold good in *. cbn [cf_p cf_tape].
    assert (Hl : length (firstn (Z.to_nat (cf_p c)) (cf_tape c) ++ s' :: skipn (Z.to_nat (cf_p c) + 1) (cf_tape c)) = length (cf_tape c)).
    { rewrite <- (upd_nth_split _ _ (fun _ => s') s En). apply length_upd_nth. }
    rewrite Hl. split; [apply Z.mod_pos_bound; lia|reflexivity].
  Qed.
End Both.

(** ** Head-centric *)
Section Head.
  Context {Q : Type} `{EqD Q} {BA BN : Type}.
  Context (W : env Z Z (Q * Z) BA BN).
  Context (table : dict Q (dict sym (Q * sym * Z))) (term : option Q) (mx : option Z).
  Notation conf := (conf Q sym).
  Notation args := (@args Z Z (Q * Z) head_centric Z).
  Notation memokey := (@memokey Z Z (Q * Z) Z).
  Notation state := (state Z Z (Q * Z) BA BN).

  (** symbols that evolve hands to the node unchanged *)
  Definition readable (s : sym) : Prop := match s with SNone => False | SInt _ => True | SStr s => String.length s = 1%nat end.
  Definition writes_readable : Prop := forall q s q' s' d, entry table q s = Some (q', s', d) -> readable s'.
  Definition labels_ok : Prop := e_lab W 0 = 0 /\ e_idx W 0 = Some 0.

  (** configuration [c], reached after [i] steps, is the last one *)
  Definition stopb (i : nat) (c : conf) : bool :=
    match mx with Some k => Z.of_nat i + 1 =? k | None => false end ||
    (negb (Nat.eqb i 0) && match term with Some q => if eqd (cf_q c) q then true else false | None => false end).

  Inductive outcome := Ran (cs : list conf) | Stuck | Unfinished.
  Fixpoint exec (fuel : nat) (i : nat) (c : conf) : outcome :=
    match fuel with
    | O => Unfinished
    | Datatypes.S f =>
        if stopb i c then Ran [c] else
        match next table c with
        | None => Stuck
        | Some c' => match exec f (i + 1) c' with Ran cs => Ran (c :: cs) | o => o end
        end
    end.

  Definition net1 : network Z Z := Eval vm_compute in match hc_network with Ok n => n | Err _ => mkNet [] None end.
  Lemma hc_network_net1 : hc_network = Ok net1.
  Proof. vm_compute. reflexivity. Qed.
  Definition act1 (c : conf) : dict Z (Q * Z) := [(0, (cf_q c, cf_p c))].

  Lemma sweep1 (g : args) (mk : memokey) r t inp ni u c (tab : list (mk_K mk * (Q * Z))) past :
    g_memo g = false -> g_pert g = None -> node_input W inp 0 = Ok ni ->
    exists x, x_cur x = (cf_q c, cf_p c) /\ x_input x = ni /\
      do_activity_rule W g mk r t inp u (act1 c) tab net1 past (Some (get_neighbourhood_map net1)) =
      match r u x with
      | Ok (u', o) => Ok (mkNst u' (if existsb (eqb 0) (o_removed o) then [] else [(0, o_act o)]) tab (o_added o) (o_removed o))
      | Err e => Err e
      end.
  Proof.
    intros Hm Hp Hn. exists (mkCtx 0 t (act1 c) [0] [(cf_q c, cf_p c)] [(0, [[("weight", 1)]])] (cf_q c, cf_p c) past ni). cbn [x_cur x_input].
    split; [reflexivity|]. split; [reflexivity|]. unfold do_activity_rule. change (nodes net1) with [0]. cbn [rfold]. unfold node_step.
    assert (Ec : node_context W t inp (act1 c) net1 past (Some (get_neighbourhood_map net1)) 0 =
      Ok (mkCtx 0 t (act1 c) [0] [(cf_q c, cf_p c)] [(0, [[("weight", 1)]])] (cf_q c, cf_p c) past ni)).
    { unfold node_context. change (in_edges net1 0) with (@Ok (dict Z (list (dict string Z))) [(0, [[("weight", 1)]])]). cbn [rbind]. change (get_neighbour_labels 0 (Some (get_neighbourhood_map net1)) net1 [(0, [[("weight", 1)]])]) with (@Ok (list Z) [0]).
      cbn [rbind]. change (dget (act1 c) 0) with (Some (cf_q c, cf_p c)). cbn [of_opt rbind rmap]. rewrite Hn. reflexivity. }
    rewrite Ec. cbn [rbind]. unfold apply_rule. rewrite Hm, Hp. cbn [s_u s_tab s_added s_removed s_curr].
    destruct (r u _) as [[u' o]|e]; [|reflexivity]. cbn [rbind app]. reflexivity.
  Qed.

  Lemma readable_input s : labels_ok -> readable s -> exists i ni, sym_input s = Some i /\ node_input W i 0 = Ok ni /\ input_sym ni = s.
  Proof.
    intros [_ Hi] Hr. destruct s as [|z|s]; [destruct Hr| |].
    - exists (InVal z), (Some (NVal z)). auto.
    - destruct s as [|a [|b s]]; try discriminate. exists (InStr (String a "")), (Some (NStr (String a ""))). split; [reflexivity|]. split; [|reflexivity].
      unfold node_input. replace (String.eqb (String a "") "__timestep__") with false.
      2: { symmetry. apply String.eqb_neq. intros E. apply (f_equal String.length) in E. discriminate. }
      rewrite Hi. reflexivity.
  Qed.

  Lemma py_nth_last {X} (l : list X) x : py_nth (l ++ [x]) (-1) = Some x.
  Proof.
    unfold py_nth, py_index. rewrite app_length. cbn [length]. destruct (Z.leb_spec 0 (-1)); [lia|]. cbn [andb].
    destruct (Z.leb_spec (- Z.of_nat (length l + 1)) (-1)); [|lia]. cbn [andb Z.ltb Z.compare]. replace (Z.to_nat (-1 + Z.of_nat (length l + 1))) with (length l) by lia.
    rewrite nth_error_app2, Nat.sub_diag by lia. reflexivity.
  Qed.

  Definition halted (i : nat) (c : conf) : bool := negb (Nat.eqb i 0) && match term with Some q => if eqd (cf_q c) q then true else false | None => false end.

  (** the rule performs one step of the machine *)
  Lemma hc_rule_step i c tapes x s : good c -> nth_error (cf_tape c) (Z.to_nat (cf_p c)) = Some s -> input_sym (x_input x) = s -> x_cur x = (cf_q c, cf_p c) ->
    halted i c = false ->
    match next table c with
    | Some c' => hc_rule table term (mkHC (tapes ++ [cf_tape c]) (cf_p c) false) x =
                   Ok (mkHC ((tapes ++ [cf_tape c]) ++ [cf_tape c']) (cf_p c') (halted (i + 1) c'), mkOut (cf_q c', cf_p c') [] [])
    | None => exists msg, hc_rule table term (mkHC (tapes ++ [cf_tape c]) (cf_p c) false) x = Err (Raise msg)
    end.
  Proof.
    intros Hg Hs Hin Hcur Hh. unfold next. rewrite Hs. unfold hc_rule. rewrite Hcur, Hin, lookup_entry. destruct (entry table (cf_q c) s) as [[[q' s'] d]|]; [|eexists; reflexivity].
    cbn [rbind hc_tapes]. rewrite py_nth_last. cbn [of_opt rbind]. unfold py_set_nth. rewrite py_index_at by exact Hg. cbn [of_opt rbind].
    rewrite length_upd_nth. unfold next_pos. unfold good in Hg. assert (El : Nat.eqb (length (cf_tape c)) 0 = false) by (apply Nat.eqb_neq; lia). rewrite El.
    rewrite (upd_nth_split _ _ (fun _ => s') s Hs).
    assert (Hhalt : forall q p tp, match term with Some q0 => if eqd q q0 then true else false | None => false end = halted (i + 1) (mkConf q p tp)).
    { intros. unfold halted. cbn [cf_q]. replace (Nat.eqb (i + 1) 0) with false by (symmetry; apply Nat.eqb_neq; lia). reflexivity. }
    unfold move. unfold LEFT, RIGHT, STAY. cbn [hc_halt].
    destruct (Z.leb_spec 0 d), (Z.leb_spec d 2); cbn [andb].
    - assert (Hd : d = 0 \/ d = 1 \/ d = 2) by lia. destruct Hd as [->|[->| ->]]; cbn [Z.eqb Pos.eqb Z.sub Z.opp Z.add Z.pos_sub Pos.pred_double cf_q cf_p cf_tape].
      + rewrite (Hhalt q' ((cf_p c + -1) mod Z.of_nat (length (cf_tape c))) (firstn (Z.to_nat (cf_p c)) (cf_tape c) ++ s' :: skipn (Z.to_nat (cf_p c) + 1) (cf_tape c))). reflexivity.
      + rewrite Z.add_0_r, (Z.mod_small (cf_p c)) by lia. cbn [rbind].
        rewrite (Hhalt q' (cf_p c) (firstn (Z.to_nat (cf_p c)) (cf_tape c) ++ s' :: skipn (Z.to_nat (cf_p c) + 1) (cf_tape c))). reflexivity.
      + rewrite (Hhalt q' ((cf_p c + 1) mod Z.of_nat (length (cf_tape c))) (firstn (Z.to_nat (cf_p c)) (cf_tape c) ++ s' :: skipn (Z.to_nat (cf_p c) + 1) (cf_tape c))). reflexivity.
    - destruct (Z.eqb_spec d 0); [lia|]. destruct (Z.eqb_spec d 2); [lia|]. destruct (Z.eqb_spec d 1); [lia|]. eexists. reflexivity.
    - destruct (Z.eqb_spec d 0); [lia|]. destruct (Z.eqb_spec d 2); [lia|]. destruct (Z.eqb_spec d 1); [lia|]. eexists. reflexivity.
    - lia.
  Qed.

  Lemma next_readable c c' : writes_readable -> Forall readable (cf_tape c) -> next table c = Some c' -> Forall readable (cf_tape c').
  Proof.
    intros Hw Hf E. unfold next in E. destruct (nth_error (cf_tape c) (Z.to_nat (cf_p c))) as [s|] eqn:En; [|discriminate].
    destruct (entry table (cf_q c) s) as [[[q' s'] d]|] eqn:Ee; [|discriminate]. destruct (move d) as [m|]; [|discriminate]. injection E as <-. cbn [cf_tape].
    apply Forall_app. split; [apply Forall_forall; intros x Hx; rewrite Forall_forall in Hf; apply Hf; rewrite <- (firstn_skipn (Z.to_nat (cf_p c)) (cf_tape c)); apply in_or_app; auto|].
    constructor; [eapply Hw; exact Ee|]. apply Forall_forall. intros x Hx. rewrite Forall_forall in Hf. apply Hf. rewrite <- (firstn_skipn (Z.to_nat (cf_p c) + 1) (cf_tape c)). apply in_or_app. auto.
  Qed.

  Lemma hc_input_eq i c tapes s t (a : dict Z (Q * Z)) (n : network Z Z) : good c -> nth_error (cf_tape c) (Z.to_nat (cf_p c)) = Some s -> length tapes = i ->
    let m := mkHC (tapes ++ [cf_tape c]) (cf_p c) (halted i c) in
    hc_input mx m t a n = Ok (m, if stopb i c then None else sym_input s).
  Proof.
    intros Hg Es Ht m. subst m. unfold hc_input. cbn [hc_tapes hc_halt hc_pos]. rewrite app_length. cbn [length].
    replace (Z.of_nat (length tapes + 1)) with (Z.of_nat i + 1) by lia. unfold stopb. fold (halted i c).
    destruct (match mx with Some k => Z.of_nat i + 1 =? k | None => false end); cbn [orb]; [reflexivity|]. destruct (halted i c); [reflexivity|].
    rewrite py_nth_last. cbn [of_opt rbind]. unfold py_nth. rewrite py_index_at by exact Hg. rewrite Es. reflexivity.
  Qed.

  Notation raw_of S := (match S with [] => None | _ => Some (Raw S) end).

  Lemma hc_loop (g : args) (mk : memokey) : static g (hc_rule table term) -> labels_ok -> writes_readable ->
    forall fuel i c tapes (tab : list (mk_K mk * (Q * Z))) (hist : list conf) traj, good c -> Forall readable (cf_tape c) -> length tapes = i -> length hist = i ->
      Forall2 (fun s S => st_act s = raw_of S) traj (map act1 hist ++ [act1 c]) ->
      let cfg := mkCfg (mkHC (tapes ++ [cf_tape c]) (cf_p c) (halted i c)) (act1 c) net1 tab (Some (get_neighbourhood_map net1)) traj in
      match exec fuel i c with
      | Ran cs => exists cfg', loop W g mk (hc_input mx) fuel (Z.of_nat i + 1) cfg = Ok cfg' /\
                    hc_tapes (c_u cfg') = tapes ++ map (@cf_tape Q sym) cs /\
                    Forall2 (fun s S => st_act s = raw_of S) (c_traj cfg') (map act1 hist ++ map act1 cs)
      | Stuck => exists msg, loop W g mk (hc_input mx) fuel (Z.of_nat i + 1) cfg = Err (Raise msg)
      | Unfinished => loop W g mk (hc_input mx) fuel (Z.of_nat i + 1) cfg = Err OutOfFuel
      end.
  Proof.
    intros Hst Hlab Hw. induction fuel as [|fuel IH]; intros i c tapes tab hist traj Hg Hr Ht Hh Hf cfg; [reflexivity|].
    destruct (nth_error (cf_tape c) (Z.to_nat (cf_p c))) as [s|] eqn:Es; [|apply nth_error_None in Es; unfold good in Hg; lia].
    assert (Hrs : readable s) by (rewrite Forall_forall in Hr; apply Hr; eapply nth_error_In; exact Es).
    destruct (readable_input s Hlab Hrs) as (inp & ni & Ei & En & Esym).
    subst cfg. cbn [exec loop]. cbn [c_u c_act c_net]. rewrite (hc_input_eq i c tapes s _ _ _ Hg Es Ht). rewrite Ei.
    destruct (stopb i c) eqn:Estop; cbn [rbind].
    { eexists. split; [reflexivity|]. cbn [with_u c_u c_traj hc_tapes map]. split; [reflexivity|assumption]. }
    assert (Eh : halted i c = false) by (unfold stopb in Estop; apply orb_false_iff in Estop; apply Estop). rewrite Eh.
    unfold with_u. cbn [c_act c_net c_tab c_map c_traj].
    pose proof Hst as (Hrule & _ & Hp & Hm & _ & _).
    destruct (sweep1 g mk (hc_rule table term) (Z.of_nat i + 1) inp ni (mkHC (tapes ++ [cf_tape c]) (cf_p c) false) c tab (past_of W (g_past g) (map act1 hist ++ [act1 c])) Hm Hp En)
      as (x & Hcur & Hxi & Edo).
    pose proof (hc_rule_step i c tapes x s Hg Es ltac:(rewrite Hxi; exact Esym) Hcur Eh) as Hstep.
    destruct (next table c) as [c'|] eqn:Enext.
    - rewrite Hstep in Edo. cbn [o_removed o_added o_act existsb] in Edo.
      destruct (static_step W g mk (hc_rule table term) (Z.of_nat i + 1) inp _ _ _ _ (map act1 hist) traj _ Hst Hf ltac:(rewrite map_length; lia) Edo eq_refl eq_refl) as (st & Estep & Hsta).
      cbn [s_u s_curr s_tab] in *. destruct (next_good table c c' Hg Enext) as [Hg' _].
      specialize (IH (i + 1)%nat c' (tapes ++ [cf_tape c]) tab (hist ++ [c]) (traj ++ [st]) Hg' (next_readable c c' Hw Hr Enext)
        ltac:(rewrite app_length; cbn; lia) ltac:(rewrite app_length; cbn; lia)).
      rewrite map_app in IH. cbn [map] in IH. specialize (IH ltac:(apply Forall2_app; [assumption|constructor; [exact Hsta|constructor]])). cbv zeta in IH.
      replace (Z.of_nat (i + 1) + 1) with (Z.of_nat i + 1 + 1) in IH by lia.
      destruct (exec fuel (i + 1) c') as [cs| |].
      + destruct IH as (cfg' & El & E1 & E2). exists cfg'. rewrite Estep. cbn [rbind]. split; [exact El|]. cbn [map]. rewrite <- app_assoc in E1, E2. auto.
      + destruct IH as (msg & El). exists msg. rewrite Estep. exact El.
      + rewrite Estep. exact IH.
    - destruct Hstep as [msg Hstep]. rewrite Hstep in Edo. exists msg.
      rewrite (static_step_err W g mk (hc_rule table term) (Z.of_nat i + 1) inp _ _ _ _ (map act1 hist) traj _ Hst Hf ltac:(rewrite map_length; lia) Edo). reflexivity.
  Qed.

  Theorem hc_evolve (g : args) fuel ts q0 p0 tape m0 : static g (hc_rule table term) -> labels_ok -> writes_readable ->
    Forall readable tape -> 0 <= p0 < Z.of_nat (length tape) -> hc_init term mx tape p0 = Ok m0 ->
    let ev := evolve W fuel m0 net1 (Some (hc_initial_conditions q0 p0)) ts (Some (InputFun (hc_input mx))) g in
    match exec fuel 0 (mkConf q0 p0 tape) with
    | Ran cs => exists mf traj, ev = Ok (mf, traj) /\ hc_tapes mf = map (@cf_tape Q sym) cs /\
                  Forall2 (fun s c => activities W s = Ok (Some [(0, (cf_q c, cf_p c))])) traj cs
    | Stuck => exists msg, ev = Err (Raise msg)
    | Unfinished => ev = Err OutOfFuel
    end.
  Proof.
    intros Hst Hlab Hw Hr Hp Ei. set (c0 := mkConf q0 p0 tape).
    assert (Em : m0 = mkHC [tape] p0 false) by (unfold hc_init in Ei; destruct term, mx; congruence). subst m0.
    cbv zeta. unfold evolve. assert (Ed : to_dict W (hc_initial_conditions q0 p0) = act1 c0) by (unfold hc_initial_conditions, to_dict; cbn; rewrite (proj1 Hlab); reflexivity).
    rewrite Ed. cbn [get_input_function rbind]. change (Nat.eqb (length (act1 c0)) (net_len net1)) with true. cbn [negb andb].
    destruct Hst as (H1 & Ht & H3 & H4 & Hc & H6). rewrite Hc, Ht. assert (Hst : static g (hc_rule table term)) by (unfold static; auto 10).
    change (set_activities W false (act1 c0)) with (@Ok (option (stored (dict Z (Q * Z)) BA)) (Some (Raw (act1 c0)))).
    change (set_network W false net1) with (@Ok (option (stored (network Z Z) BN)) (Some (Raw net1))). cbn [rbind].
    set (mk := match g_key g with Some k => k | None => default_key net1 end).
    pose proof (hc_loop g mk Hst Hlab Hw fuel 0 c0 [] [] [] [mkState (Some (Raw (act1 c0))) (Some (Raw net1))] Hp Hr eq_refl eq_refl ltac:(constructor; [reflexivity|constructor])) as Hl.
    cbv zeta in Hl. cbn [app map] in Hl. change (Z.of_nat 0 + 1) with 1 in Hl. change (halted 0 c0) with false in Hl. change (cf_tape c0) with tape in Hl. change (cf_p c0) with p0 in Hl.
    destruct (exec fuel 0 c0) as [cs| |].
    - destruct Hl as (cfg' & El & E1 & E2). rewrite El. cbn [rbind]. exists (c_u cfg'), (c_traj cfg'). split; [reflexivity|]. split; [assumption|].
      clear - E2. remember (map act1 cs) as l eqn:El. revert cs El. induction E2 as [|s S tr l Es E2 IH]; intros [|c cs] El; try discriminate; constructor.
      + injection El as -> ->. unfold activities. rewrite Es. reflexivity.
      + apply IH. injection El. auto.
    - destruct Hl as (msg & El). exists msg. rewrite El. reflexivity.
    - rewrite Hl. reflexivity.
  Qed.

  (** exec and runs of the machine *)
  Lemma exec_ran fuel i c cs : exec fuel i c = Ran cs <->
    run_from table c cs /\ (length cs <= fuel)%nat /\
    (forall k a, nth_error cs k = Some a -> stopb (i + k) a = Nat.eqb (k + 1) (length cs)).
  Proof.
    revert i c cs. induction fuel as [|fuel IH]; intros i c cs; cbn [exec].
    - split; [discriminate|]. intros [[E _] [Hl _]]. destruct cs; [discriminate|cbn in Hl; lia].
    - split.
      + destruct (stopb i c) eqn:Es.
        * intros E. injection E as <-. split; [split; [reflexivity|intros [|k] a b E1 E2; [discriminate|destruct k; discriminate]]|]. split; [cbn; lia|].
          intros [|k] a E; [|destruct k; discriminate]. injection E as <-. rewrite Nat.add_0_r. exact Es.
        * destruct (next table c) as [c'|] eqn:En; [|discriminate]. destruct (exec fuel (i + 1) c') as [cs'| |] eqn:Ee; try discriminate. intros E. injection E as <-.
          apply IH in Ee. destruct Ee as ([Hz Hn] & Hl & Hs). split; [split; [reflexivity|]|].
          -- intros [|k] a b E1 E2; [injection E1 as <-; change (nth_error cs' 0 = Some b) in E2; rewrite Hz in E2; congruence|]. apply (Hn k); assumption.
          -- split; [cbn; lia|]. intros [|k] a E; cbn in E.
             ++ injection E as <-. rewrite Nat.add_0_r, Es. destruct cs'; [discriminate|reflexivity].
             ++ replace (i + Datatypes.S k)%nat with (i + 1 + k)%nat by lia. rewrite (Hs k a E). reflexivity.
      + intros ([Hz Hn] & Hl & Hs). destruct cs as [|c1 cs]; [discriminate|]. injection Hz as ->. pose proof (Hs 0%nat c eq_refl) as Hs0. rewrite Nat.add_0_r in Hs0. rewrite Hs0.
        destruct cs as [|c2 cs]; [reflexivity|]. cbn [length Nat.add Nat.eqb]. rewrite (Hn 0%nat c c2 eq_refl eq_refl).
        assert (E : exec fuel (i + 1) c2 = Ran (c2 :: cs)).
        { apply IH. split; [split; [reflexivity|intros k a b E1 E2; apply (Hn (Datatypes.S k)); assumption]|]. split; [cbn [length] in *; lia|].
          intros k a E. replace (i + 1 + k)%nat with (i + Datatypes.S k)%nat by lia. rewrite (Hs (Datatypes.S k) a E). reflexivity. }
        rewrite E. reflexivity.
  Qed.

  Lemma exec_stuck fuel i c cs a : run_from table c cs -> (length cs <= fuel)%nat -> nth_error cs (length cs - 1) = Some a -> next table a = None ->
    (forall k b, nth_error cs k = Some b -> stopb (i + k) b = false) -> exec fuel i c = Stuck.
  Proof.
    revert i c cs. induction fuel as [|fuel IH]; intros i c cs [Hz Hn] Hl Ha Hno Hs; [destruct cs; [discriminate|cbn in Hl; lia]|].
    destruct cs as [|c1 cs]; [discriminate|]. injection Hz as ->. cbn [exec]. pose proof (Hs 0%nat c eq_refl) as Hs0. rewrite Nat.add_0_r in Hs0. rewrite Hs0.
    destruct cs as [|c2 cs]; [cbn in Ha; injection Ha as ->; rewrite Hno; reflexivity|]. rewrite (Hn 0%nat c c2 eq_refl eq_refl).
    rewrite (IH (i + 1)%nat c2 (c2 :: cs)); [reflexivity|split; [reflexivity|intros k x y E1 E2; apply (Hn (Datatypes.S k)); assumption]|cbn [length] in *; lia| |assumption|].
    - cbn [length] in *. replace (Datatypes.S (Datatypes.S (length cs)) - 1)%nat with (Datatypes.S (length cs)) in Ha by lia. replace (Datatypes.S (length cs) - 1)%nat with (length cs) by lia. exact Ha.
    - intros k b E. replace (i + 1 + k)%nat with (i + Datatypes.S k)%nat by lia. apply (Hs (Datatypes.S k)). assumption.
  Qed.

  Lemma exec_unfinished fuel i c cs : run_from table c cs -> (fuel < length cs)%nat -> (forall k b, (k < fuel)%nat -> nth_error cs k = Some b -> stopb (i + k) b = false) -> exec fuel i c = Unfinished.
  Proof.
    revert i c cs. induction fuel as [|fuel IH]; intros i c cs [Hz Hn] Hl Hs; [reflexivity|].
    destruct cs as [|c1 cs]; [discriminate|]. injection Hz as ->. cbn [exec]. pose proof (Hs 0%nat c ltac:(lia) eq_refl) as Hs0. rewrite Nat.add_0_r in Hs0. rewrite Hs0.
    destruct cs as [|c2 cs]; [cbn in Hl; lia|]. rewrite (Hn 0%nat c c2 eq_refl eq_refl).
    rewrite (IH (i + 1)%nat c2 (c2 :: cs)); [reflexivity|split; [reflexivity|intros k x y E1 E2; apply (Hn (Datatypes.S k)); assumption]|cbn [length] in *; lia|].
    intros k b Hk E. replace (i + 1 + k)%nat with (i + Datatypes.S k)%nat by lia. apply (Hs (Datatypes.S k)); [lia|assumption].
  Qed.
End Head.
