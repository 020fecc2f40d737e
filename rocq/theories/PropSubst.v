(** * C46: substitution systems *)
From Coq Require Import Ascii.
From Verif Require Import Py PyFacts ListFacts Network NetworkSpec.
From Verif Require Import Evolve EvolveSpec EvolveProofs EvolveProofs2 EvolveProofs3 EvolveStatic Utils UtilsProofs TopologyProofs4 SubstSpec Subst SubstProofs SubstProofs2.
Open Scope string_scope.
Open Scope list_scope.
Open Scope Z_scope.

(** ** the constructor *)
Section Init.
  Context {A V : Type}.

  Lemma dget_dupdate {K X} `{EqD K} (d d' : dict K X) w : NoDup (dkeys d') -> dget (dupdate d d') w = match dget d' w with Some x => Some x | None => dget d w end.
  Proof.
    unfold dupdate. revert d. induction d' as [|[k x] d' IH]; intros d Hnd; [reflexivity|]. cbn [fold_left fst snd dget]. inversion Hnd as [|k0 l Hk Hnd']. subst. rewrite IH by assumption.
    destruct (eqd w k) as [->|Hne].
    - rewrite (proj2 (dget_none d' k) Hk). apply dget_dset_eq.
    - destruct (dget d' w); [reflexivity|]. apply dget_dset_ne. congruence.
  Qed.

  Definition const_dict (constants : list string) : dict string string := fold_left (fun d c => dset d c c) constants [].
  Lemma const_dict_ok constants : NoDup (dkeys (const_dict constants)) /\ forall w, dget (const_dict constants) w = if in_dec eqd w constants then Some w else None.
  Proof.
    unfold const_dict. assert (Hg : forall (l : list string) d done, NoDup (dkeys d) -> (forall w, dget d w = if in_dec eqd w done then Some w else None) ->
      NoDup (dkeys (fold_left (fun d c => dset d c c) l d)) /\ forall w, dget (fold_left (fun d c => dset d c c) l d) w = if in_dec eqd w (done ++ l) then Some w else None).
    { induction l as [|c l IH]; intros d done Hnd Hd; [rewrite app_nil_r; auto|]. cbn [fold_left]. replace (done ++ c :: l) with ((done ++ [c]) ++ l) by (rewrite <- app_assoc; reflexivity). apply IH; [apply NoDup_dset; assumption|].
      intros w. rewrite dget_dset. destruct (eqd w c) as [->|Hne].
      - destruct (in_dec eqd c (done ++ [c])) as [_|Hn]; [reflexivity|]. exfalso. apply Hn, in_or_app. right. left. reflexivity.
      - rewrite Hd. destruct (in_dec eqd w done) as [Hi|Hi], (in_dec eqd w (done ++ [c])) as [Hj|Hj]; try reflexivity; exfalso.
        + apply Hj, in_or_app. left. assumption.
        + apply in_app_or in Hj. destruct Hj as [Hj|[Hj|[]]]; congruence. }
    apply (Hg constants [] []); [constructor|reflexivity].
  Qed.

  (** The object is built for every non-empty axiom when all keys and constants have length [k]; a constant rewrites to itself. *)
  Theorem C46_init (axiom : list A) (rules : dict string string) (constants : list string) (k : nat) :
    axiom <> [] -> rules <> [] -> (1 <= k)%nat -> (forall w, In w (dkeys rules) \/ In w constants -> String.length w = k) ->
    exists rules' net u, subst_init (V := V) axiom rules constants = Ok (rules', Z.of_nat k, net, u) /\
      forall w, dget rules' w = if in_dec eqd w constants then Some w else dget rules w.
  Proof.
    intros Hax Hru Hk Hlen. unfold subst_init. fold (const_dict constants). destruct (const_dict_ok constants) as [Hnd Hget]. set (rules' := dupdate rules (const_dict constants)).
    assert (Hg : forall w, dget rules' w = if in_dec eqd w constants then Some w else dget rules w) by (intros w; unfold rules'; rewrite (dget_dupdate _ _ _ Hnd), Hget; destruct (in_dec eqd w constants); reflexivity).
    assert (Hkeys : forall kv, In kv rules' -> String.length (fst kv) = k).
    { intros [w y] Hin. assert (Hw : In w (dkeys rules')) by (apply in_map_iff; exists (w, y); auto). apply Hlen.
      destruct (in_dec eqd w constants) as [Hc|Hc]; [right; assumption|]. left. destruct (in_dec eqd w (dkeys rules)) as [Hi|Hi]; [assumption|]. exfalso.
      assert (E : dget rules' w = None) by (rewrite Hg; destruct (in_dec eqd w constants); [contradiction|]; apply dget_none; assumption). apply dget_none in E. contradiction. }
    assert (Hne : rules' <> []).
    { intros E. destruct rules as [|[w y] r]; [contradiction|]. specialize (Hg w). rewrite E in Hg. cbn [dget] in Hg. destruct (in_dec eqd w constants); [discriminate|]. destruct (eqd w w); [discriminate|congruence]. }
    unfold get_neighbourhood_size. destruct rules' as [|[k0 y0] r]; [contradiction|].
    assert (E0 : String.length k0 = k) by (apply (Hkeys (k0, y0)); left; reflexivity). rewrite E0.
    assert (Ef : forallb (fun kv => Nat.eqb (String.length (fst kv)) k) ((k0, y0) :: r) = true) by (apply forallb_forall; intros kv Hin; apply Nat.eqb_eq, Hkeys; assumption).
    rewrite Ef. cbn [rbind]. destruct axiom as [|a ax]; [contradiction|].
    destruct (init_network_windowed (V := V) (Z.of_nat k) (Z.of_nat (length (a :: ax))) ltac:(lia) ltac:(lia)) as (net & En & _). rewrite En. eexists _, _, _. split; [reflexivity|]. exact Hg.
  Qed.

  (** ... and refused when two keys differ in length *)
  Theorem C46_key_lengths (axiom : list A) (rules : dict string string) w1 w2 : In w1 (dkeys rules) -> In w2 (dkeys rules) -> String.length w1 <> String.length w2 ->
    subst_init (V := V) axiom rules [] = Err (Raise "all keys in the rule map must be the same length").
  Proof.
    intros H1 H2 Hne. unfold subst_init. change (dupdate rules (fold_left _ [] [])) with rules. unfold get_neighbourhood_size. destruct rules as [|[k0 y0] r] eqn:Er; [destruct H1|]. rewrite <- Er in *.
    destruct (forallb (fun kv => Nat.eqb (String.length (fst kv)) (String.length k0)) rules) eqn:E; [|reflexivity]. exfalso. rewrite forallb_forall in E. apply in_map_iff in H1, H2.
    destruct H1 as (kv1 & <- & H1), H2 as (kv2 & <- & H2). apply E in H1, H2. apply Nat.eqb_eq in H1, H2. congruence.
  Qed.
  Lemma init_inv (axiom : list A) rules constants rules' k net u : subst_init (V := V) axiom rules constants = Ok (rules', k, net, u) -> 1 <= k ->
    windowed k 0 (Z.of_nat (length axiom)) net /\ u = mkSS (Z.of_nat (length axiom) - 1) 0 0.
  Proof.
    intros E Hk. unfold subst_init in E. inv_bind E k' Ek. destruct axiom as [|a ax]; [discriminate|].
    destruct (init_network k' (Z.of_nat (length (a :: ax)))) as [n0 [[]|]] eqn:En; [|discriminate]. injection E as <- <- <- <-.
    destruct (init_network_windowed (V := V) k' (Z.of_nat (length (a :: ax))) Hk ltac:(lia)) as (net & En' & Hw). rewrite En' in En. injection En as <-. auto.
  Qed.
End Init.

(** ** runs *)
Section Run.
  Context {A V I BA BN : Type} `{EqD A} (str : A -> string) (conv : ascii -> res A).
  Context (W : env Z V A BA BN).
  Notation args := (@args Z V A subst I).

  (** a state shows the string: the activities in increasing order of labels are its converted characters *)
  Definition displays (st : state Z V A BA BN) (s : list ascii) : Prop :=
    match s with
    | [] => activities W st = Ok None
    | _ => exists d, activities W st = Ok (Some d) /\ asc (dkeys d) /\ rmap conv s = Ok (dvals d)
    end.

  Definition plain (g : args) (rules : dict string string) (k : Z) : Prop := static g (subst_rule str conv rules k) /\ g_order g = ACTIVITIES_FIRST.

  Lemma row_vals lo (l : list A) : dvals (row lo l) = l.
  Proof.
    unfold row, dvals. revert lo. induction l as [|a l IH]; intros lo; [rewrite zrange_nil by (cbn; lia); reflexivity|]. cbn [length]. rewrite (zrange_cons lo) by lia. cbn [combine map snd]. f_equal.
    replace (lo + Z.of_nat (Datatypes.S (length l))) with (lo + 1 + Z.of_nat (length l)) by lia. apply IH.
  Qed.
  Lemma row_cons lo a (l : list A) : exists d, row lo (a :: l) = (lo, a) :: d.
  Proof. unfold row. cbn [length]. rewrite (zrange_cons lo) by lia. eexists. reflexivity. Qed.
  Lemma shown_displays st s lo l : rmap conv s = Ok l -> st_act st = match row lo l with [] => None | _ => Some (Raw (row lo l)) end -> displays st s.
  Proof.
    intros Es Est. unfold displays, activities. rewrite Est. destruct s as [|c s].
    - cbn in Es. injection Es as <-. unfold row. rewrite zrange_nil by (cbn; lia). reflexivity.
    - pose proof (rmap_len _ _ _ Es) as Hl. destruct l as [|a l]; [discriminate|]. destruct (row_cons lo a l) as [d Ed]. exists (row lo (a :: l)). rewrite Ed at 1 2. cbn. rewrite Ed. split; [reflexivity|]. rewrite <- Ed. split.
      + unfold row. rewrite row_keys. apply asc_zrange.
      + rewrite row_vals. assumption.
  Qed.

  Theorem C46_parallel_rewriting fuel (g : args) axiom rules0 constants rules k net u s ss :
    subst_init axiom rules0 constants = Ok (rules, k, net, u) -> 1 <= k ->
    (forall c a, conv c = Ok a -> str a = String c "") -> (forall w y, image rules w = Some y -> exists l, rmap conv y = Ok l) ->
    plain g rules k -> (forall i, e_lab W i = Z.of_nat i) ->
    rmap conv s = Ok axiom -> derivation rules (Z.to_nat k) s ss -> (length ss < fuel)%nat ->
    exists uf traj, evolve W fuel u net (Some (CList axiom)) (Some (Z.of_nat (length ss))) None g = Ok (uf, traj) /\ Forall2 displays traj ss.
  Proof.
    intros Ei Hk Hconv Hval Hg Hlab Es Hd Hfuel. destruct (init_inv _ _ _ _ _ _ _ Ei Hk) as [Hw ->]. rewrite (rmap_len _ _ _ Es) in *.
    destruct (derivation_chain _ _ _ _ Hd) as (rest & -> & Hch).
    destruct (subst_run str conv W rules k Hk Hconv Hval g fuel (mkSS (Z.of_nat (length s) - 1) 0 0) net s axiom rest (Z.of_nat (length (s :: rest))) Hg Hlab Es Hw) as [L _]; try assumption; cbn [ss_time ss_last length] in *; try lia.
    destruct L as (uf & traj & E & Hf); [lia|]. exists uf, traj. split; [assumption|]. eapply Forall2_impl; [|exact Hf]. intros st s' (lo & l & E1 & E2). eapply shown_displays; eassumption.
  Qed.

  (** a window without a rule raises KeyError *)
  Theorem C46_missing_rule fuel (g : args) axiom rules0 constants rules k net u s ss T :
    subst_init axiom rules0 constants = Ok (rules, k, net, u) -> 1 <= k ->
    (forall c a, conv c = Ok a -> str a = String c "") -> (forall w y, image rules w = Some y -> exists l, rmap conv y = Ok l) ->
    plain g rules k -> (forall i, e_lab W i = Z.of_nat i) ->
    rmap conv s = Ok axiom -> derivation rules (Z.to_nat k) s ss -> rewrite_all rules (Z.to_nat k) (last ss s) = None -> Z.of_nat (length ss) < T -> (Z.to_nat T < fuel)%nat ->
    evolve W fuel u net (Some (CList axiom)) (Some T) None g = Err KeyError.
  Proof.
    intros Ei Hk Hconv Hval Hg Hlab Es Hd Hlast HT Hfuel. destruct (init_inv _ _ _ _ _ _ _ Ei Hk) as [Hw ->]. rewrite (rmap_len _ _ _ Es) in *.
    destruct (derivation_chain _ _ _ _ Hd) as (rest & -> & Hch). rewrite last_cons in Hlast. cbn [length] in HT.
    destruct (subst_run str conv W rules k Hk Hconv Hval g fuel (mkSS (Z.of_nat (length s) - 1) 0 0) net s axiom rest T Hg Hlab Es Hw) as [_ L]; try assumption; cbn [ss_time ss_last]; try lia.
    apply L; [lia|assumption].
  Qed.
End Run.

(** ** the output functions *)
Section Output.
  Context {V BA BN : Type}.

  Lemma rmap_combine {X} (ks : list Z) (l : list X) : NoDup ks -> length ks = length l -> rmap (fun k => of_opt KeyError (dget (combine ks l) k)) ks = Ok l.
  Proof.
    intros Hnd Hl. assert (Hg : forall (pre : dict Z X) ks (l : list X), NoDup (dkeys pre ++ ks) -> length ks = length l -> rmap (fun k => of_opt KeyError (dget (pre ++ combine ks l) k)) ks = Ok l).
    { clear. intros pre ks. revert pre. induction ks as [|k ks IH]; intros pre [|x l] Hnd Hl; try discriminate; [reflexivity|]. cbn [rmap combine].
      assert (Hk : ~ In k (dkeys pre)) by (apply NoDup_remove_2 in Hnd; intros Hi; apply Hnd, in_or_app; left; assumption).
      rewrite dget_app. rewrite (proj2 (dget_none pre k) Hk). cbn [dget]. destruct (eqd k k); [|congruence]. cbn [of_opt rbind].
      specialize (IH (pre ++ [(k, x)]) l). rewrite <- app_assoc in IH. cbn [app] in IH. rewrite IH; [reflexivity| |cbn in Hl; lia]. rewrite dkeys_app. cbn. rewrite <- app_assoc. exact Hnd. }
    apply (Hg [] ks l); assumption.
  Qed.
  Lemma dict_combine {X} (d : dict Z X) : d = combine (dkeys d) (dvals d).
  Proof. unfold dkeys, dvals. induction d as [|[k x] d IH]; [reflexivity|]. cbn. f_equal. assumption. Qed.
  Lemma sorted_asc l : asc l -> sorted Z.leb l = l.
  Proof.
    induction l as [|x l IH]; intros Ha; [reflexivity|]. apply asc_cons_inv in Ha. destruct Ha as [Ha Hx]. cbn [sorted]. rewrite IH by assumption. destruct l as [|y l]; [reflexivity|]. cbn.
    destruct (Z.leb_spec x y); [reflexivity|]. specialize (Hx y (or_introl eq_refl)). lia.
  Qed.
  Lemma in_order {X} (d : dict Z X) : asc (dkeys d) -> rmap (fun k => of_opt KeyError (dget d k)) (sorted Z.leb (dkeys d)) = Ok (dvals d).
  Proof.
    intros Ha. rewrite (sorted_asc _ Ha). pose proof (rmap_combine (dkeys d) (dvals d)) as E. rewrite <- dict_combine in E. apply E; [apply asc_NoDup; assumption|]. unfold dkeys, dvals. rewrite !map_length. reflexivity.
  Qed.

  Lemma concat_chars s l : rmap str_conv s = Ok l -> String.concat "" l = string_of_list_ascii s.
  Proof.
    revert l. induction s as [|c s IH]; intros l E; cbn in E; [injection E as <-; reflexivity|]. inv_bind E r Er. injection E as <-. specialize (IH r Er). destruct r as [|b r].
    - destruct s; [reflexivity|]. apply rmap_len in Er. discriminate.
    - cbn [string_of_list_ascii]. rewrite <- IH. reflexivity.
  Qed.

  Theorem C46_to_string (W : env Z V string BA BN) traj ss : Forall2 (displays str_conv W) traj ss -> Forall (fun s => s <> []) ss ->
    to_string W traj = Ok (map string_of_list_ascii ss).
  Proof.
    unfold to_string. induction 1 as [|st s traj ss Hd Hf IH]; intros Hne; [reflexivity|]. inversion Hne as [|s' ss' Hs Hne']. subst. cbn [rmap map]. rewrite IH by assumption.
    destruct s as [|c s]; [contradiction|]. destruct Hd as (d & E & Ha & Ev). rewrite E. cbn [rbind]. rewrite (in_order d Ha). cbn [rbind]. rewrite (concat_chars _ _ Ev). reflexivity.
  Qed.
  (** the empty string cannot be printed *)
  Theorem C46_to_string_empty (W : env Z V string BA BN) traj ss : Forall2 (displays str_conv W) traj ss -> In [] ss -> to_string W traj = Err TypeError.
  Proof.
    unfold to_string. induction 1 as [|st s traj ss Hd Hf IH]; intros Hin; [destruct Hin|]. cbn [rmap]. destruct s as [|c s].
    - cbn in Hd. rewrite Hd. reflexivity.
    - destruct Hin as [Hin|Hin]; [discriminate|]. destruct Hd as (d & E & Ha & Ev). rewrite E. cbn [rbind]. rewrite (in_order d Ha). cbn [rbind]. rewrite (IH Hin). reflexivity.
  Qed.

  (** [pad]: the rows of numbers, filled with zeros up to the longest *)
  Theorem C46_pad (W : env Z V Z BA BN) traj ss rows m : Forall2 (displays int_conv W) traj ss -> ss <> [] -> Forall (fun s => s <> []) ss ->
    Forall2 (fun s r => rmap int_conv s = Ok r) ss rows -> (forall r, In r rows -> (length r <= m)%nat) -> (exists r, In r rows /\ length r = m) ->
    pad W traj = Ok (map (fun r => r ++ repeat 0 (m - length r)) rows).
  Proof.
    intros Hd Hne0 Hne Hr Hmax (r0 & Hr0 & El0). unfold pad.
    assert (E : rmap (fun st => ac <- activities W st ;; match ac with None => Err (Raise "AttributeError") | Some d => rmap (fun k => of_opt KeyError (dget d k)) (sorted Z.leb (dkeys d)) end) traj = Ok rows).
    { clear - Hd Hne Hr. revert rows Hr. induction Hd as [|st s traj ss Hd Hf IH]; intros rows Hr; inversion Hr as [|s0 r ss0 rows' E1 Hr']; subst; [reflexivity|]. inversion Hne as [|s' ss' Hs Hne']. subst. cbn [rmap].
      destruct s as [|c s]; [contradiction|]. destruct Hd as (d & E & Ha & Ev). rewrite E. cbn [rbind]. rewrite (in_order d Ha). cbn [rbind]. rewrite (IH Hne' rows' Hr'). cbn [rbind]. congruence. }
    rewrite E. cbn [rbind]. destruct rows as [|r rows]; [destruct Hr0|].
    assert (Em : fold_left Nat.max (map (@length Z) (r :: rows)) 0%nat = m).
    { assert (Hg : forall (l : list (list Z)) a, fold_left Nat.max (map (@length Z) l) a = Nat.max a (list_max (map (@length Z) l))).
      { clear. induction l as [|x l IH]; intros a; cbn [map fold_left list_max fold_right]; [lia|]. rewrite IH. unfold list_max. cbn [fold_right]. lia. }
      rewrite Hg, Nat.max_0_l. apply Nat.le_antisymm.
      - apply list_max_le, Forall_forall. intros x Hx. apply in_map_iff in Hx. destruct Hx as (r1 & <- & H1). apply Hmax. assumption.
      - assert (Hle : forall x l, In x l -> (x <= list_max l)%nat) by (clear; intros x l; induction l as [|y l IH]; intros []; unfold list_max in *; cbn [fold_right]; [subst; lia|apply IH in H; lia]).
        apply Hle. rewrite <- El0. apply in_map. assumption. }
    cbv zeta. rewrite Em. reflexivity.
  Qed.
End Output.

(** ** Examples *)
Definition Ws : env Z unit string unit unit :=
  mkEnv Z.of_nat (fun v => Some v) (fun _ => tt) (fun _ => Err Unmodelled) (fun _ => Err Unmodelled) (fun _ => Err Unmodelled) (fun _ => Err Unmodelled).
Definition Wi : env Z unit Z unit unit :=
  mkEnv Z.of_nat (fun v => Some v) (fun _ => tt) (fun _ => Err Unmodelled) (fun _ => Err Unmodelled) (fun _ => Err Unmodelled) (fun _ => Err Unmodelled).
Definition sargs {A} `{EqD A} (str : A -> string) conv rules k o : @args Z unit A subst unit :=
  mkArgs (Some (subst_rule str conv rules k)) None None [] o true false true true false None.
Definition chars (s : string) : list ascii := list_ascii_of_string s.

(** Lindenmayer's algae, with a constant *)
Definition algae : dict string string := [("A", "AB"); ("B", "A+")].
Definition run_algae o T := ' (rules, k, net, u) <- subst_init ["A"] algae ["+"] ;; ' (_, tr) <- evolve Ws 20 u net (Some (CList ["A"])) (Some T) None (sargs (fun a => a) str_conv rules k o) ;; to_string Ws tr.
Example C46_algae : run_algae ACTIVITIES_FIRST 4 = Ok ["A"; "AB"; "ABA+"; "ABA+AB+"].
Proof. vm_compute. reflexivity. Qed.

(** the hypotheses of the theorem hold for it *)
Example C46_hypotheses : exists rules net u, subst_init (V := unit) ["A"] algae ["+"] = Ok (rules, 1, net, u) /\
  (forall c a, str_conv c = Ok a -> a = String c "") /\ (forall w y, image rules w = Some y -> exists l, rmap str_conv y = Ok l) /\
  plain (I := unit) (fun a => a) str_conv (sargs (fun a => a) str_conv rules 1 ACTIVITIES_FIRST) rules 1 /\ rmap str_conv (chars "A") = Ok ["A"] /\
  derivation rules 1 (chars "A") (map chars ["A"; "AB"; "ABA+"; "ABA+AB+"]).
Proof.
  eexists _, _, _. split; [vm_compute; reflexivity|]. split; [intros c a E; injection E as <-; reflexivity|]. split; [intros w y _; apply rmap_total; intros c _; eexists; reflexivity|].
  split; [unfold plain, static; repeat split|]. split; [reflexivity|]. split; [reflexivity|]. intros i a b E1 E2.
  do 4 (destruct i as [|i]; [vm_compute in E1, E2; try discriminate; injection E1 as <-; injection E2 as <-; vm_compute; reflexivity|]). vm_compute in E1. destruct i; discriminate.
Qed.

(** a neighbourhood-dependent system whose string shrinks to nothing *)
Definition nks : dict string string := [("22", "21"); ("21", "1"); ("12", "21"); ("11", "")].
Definition run_nks (axiom : list Z) T := ' (rules, k, net, u) <- subst_init axiom nks [] ;; ' (_, tr) <- evolve Wi 20 u net (Some (CList axiom)) (Some T) None (sargs digit int_conv rules k ACTIVITIES_FIRST) ;; Ok tr.
Example C46_nks : (tr <- run_nks [1; 2; 2; 1] 4 ;; pad Wi tr) = Ok [[1; 2; 2; 1; 0]; [2; 1; 2; 1; 1]; [1; 2; 1; 1; 0]; [2; 1; 1; 0; 0]] /\
  (tr <- run_nks [1; 2; 2; 1] 7 ;; rmap (fun st => a <- activities Wi st ;; Ok (option_map dvals a)) tr) =
  Ok [Some [1; 2; 2; 1]; Some [2; 1; 2; 1; 1]; Some [1; 2; 1; 1]; Some [2; 1; 1]; Some [1]; None; None].
Proof. split; vm_compute; reflexivity. Qed.

(** a missing rule, and a character that is not a number *)
Example C46_raises :
  (' (rules, k, net, u) <- subst_init [1; 2] [("12", "13")] [] ;; ' (_, tr) <- evolve Wi 20 u net (Some (CList [1; 2])) (Some 3) None (sargs digit int_conv rules k ACTIVITIES_FIRST) ;; Ok tr) = Err KeyError /\
  (' (rules, k, net, u) <- subst_init [1; 2] [("12", "1A")] [] ;; ' (_, tr) <- evolve Wi 20 u net (Some (CList [1; 2])) (Some 3) None (sargs digit int_conv rules k ACTIVITIES_FIRST) ;; Ok tr) = Err ValueError.
Proof. split; vm_compute; reflexivity. Qed.

(** ** Limits *)

(** with another update order nodes are neither added nor removed, and the new labels have no activity of their own *)
Theorem C46_other_order_refuted : exists T, run_algae TOPOLOGY_FIRST T <> run_algae ACTIVITIES_FIRST T /\ run_algae TOPOLOGY_FIRST T = Err KeyError.
Proof. exists 4. split; vm_compute; [discriminate|reflexivity]. Qed.

(** an empty key: no node has an empty neighbourhood, so the string is deleted instead of being rewritten *)
Theorem C46_empty_key_refuted : exists rules net u uf traj, subst_init (V := unit) ["A"] [("", "B")] [] = Ok (rules, 0, net, u) /\
  derivation rules 0 (chars "A") [chars "A"; chars "BB"] /\
  evolve Ws 5 u net (Some (CList ["A"])) (Some 2) None (sargs (fun a => a) str_conv rules 0 ACTIVITIES_FIRST) = Ok (uf, traj) /\
  ~ Forall2 (displays str_conv Ws) traj [chars "A"; chars "BB"].
Proof.
  eexists _, _, _, _, _. split; [vm_compute; reflexivity|]. split.
  { split; [reflexivity|]. intros [|[|i]] a b E1 E2; vm_compute in E1, E2; [injection E1 as <-; injection E2 as <-; vm_compute; reflexivity|discriminate|destruct i; discriminate]. }
  split; [vm_compute; reflexivity|]. intros Hf. inversion Hf as [|x y l l' _ H2]. subst. inversion H2 as [|x2 y2 l2 l2' H3 _]. subst. destruct H3 as (d & E & _). vm_compute in E. discriminate.
Qed.

(** The object is good for one run: if a run of one step was made before, the counter of added nodes is not reset, and the
    first new node is linked to a node that does not exist. *)
Definition rerun T1 T2 := ' (rules, k, net, u) <- subst_init ["a"; "a"] [("aa", "aa"); ("ab", "ab"); ("ba", "ba")] [] ;;
  let g := sargs (fun a => a) str_conv rules k ACTIVITIES_FIRST in
  ' (u1, _) <- evolve Ws 9 u net (Some (CList ["a"; "a"])) (Some T1) None g ;; ' (_, tr) <- evolve Ws 9 u1 net (Some (CList ["a"; "a"])) (Some T2) None g ;; to_string Ws tr.
Theorem C46_second_run_refuted : rerun 2 2 = Ok ["aa"; "aa"] /\ rerun 3 3 = Ok ["aa"; "aa"; "aa"] /\ exists T1 T2, rerun T1 T2 = Err KeyError.
Proof. split; [vm_compute; reflexivity|]. split; [vm_compute; reflexivity|]. exists 2, 3. vm_compute. reflexivity. Qed.

Print Assumptions C46_init.
Print Assumptions C46_key_lengths.
Print Assumptions C46_parallel_rewriting.
Print Assumptions C46_missing_rule.
Print Assumptions C46_to_string.
Print Assumptions C46_to_string_empty.
Print Assumptions C46_pad.
Print Assumptions C46_other_order_refuted.
Print Assumptions C46_empty_key_refuted.
Print Assumptions C46_second_run_refuted.
