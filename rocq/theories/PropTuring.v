(** Property theorems for the Turing machines (C44, C45). *)
From Coq Require Import Sorted.
From Verif Require Import Py PyFacts ListFacts Network Topology Evolve EvolveSpec EvolveProofs2 EvolveProofs3 EvolveStatic PropEvolve Utils UtilsProofs.
From Verif Require Import TuringSpec Turing TuringProofs TuringProofs2.
Open Scope string_scope.
Open Scope list_scope.
Open Scope Z_scope.

(** ** C44. Head-centric machines *)

(** the machine stops at the [i]-th configuration: [max_timesteps] tapes are recorded, or the terminating state was entered *)
Definition stopped {Q} (term : option Q) (mx : option Z) (i : nat) (c : conf Q sym) : Prop :=
  mx = Some (Z.of_nat i + 1) \/ ((0 < i)%nat /\ term = Some (cf_q c)).

Lemma stopped_iff {Q} `{EqD Q} (term : option Q) mx i c : stopb term mx i c = true <-> stopped term mx i c.
Proof.
  unfold stopb, stopped. rewrite orb_true_iff, andb_true_iff, negb_true_iff, Nat.eqb_neq. split.
  - intros [E|[Hi E]]; [left|right].
    + destruct mx; [|discriminate]. apply Z.eqb_eq in E. congruence.
    + split; [lia|]. destruct term as [q|]; [|discriminate]. destruct (eqd (cf_q c) q); congruence.
  - intros [->|[Hi ->]]; [left; apply Z.eqb_refl|right]. split; [lia|]. destruct (eqd (cf_q c) (cf_q c)); congruence.
Qed.
Lemma stopped_no {Q} `{EqD Q} (term : option Q) mx i c : stopb term mx i c = false <-> ~ stopped term mx i c.
Proof. rewrite <- stopped_iff. destruct (stopb term mx i c); split; intros; congruence. Qed.

(** the run of the machine up to the first configuration where it stops is what evolve computes; tapes, head states and head
    positions agree. [readable] excludes None and strings of length other than one, see below. *)
Theorem C44_head_centric_run : forall {Q BA BN} `{EqD Q} (W : env Z Z (Q * Z) BA BN) table term mx net m0 (g : @args Z Z (Q * Z) head_centric Z) fuel ts q0 p0 tape cs,
    static g (hc_rule table term) -> e_lab W 0 = 0 -> e_idx W 0 = Some 0 ->
    Forall readable tape -> writes_readable table -> 0 <= p0 < Z.of_nat (length tape) ->
    hc_network = Ok net -> hc_init term mx tape p0 = Ok m0 ->
    run_from table (mkConf q0 p0 tape) cs -> (length cs <= fuel)%nat ->
    (forall i c, nth_error cs i = Some c -> stopped term mx i c <-> Datatypes.S i = length cs) ->
    exists m traj, evolve W fuel m0 net (Some (hc_initial_conditions q0 p0)) ts (Some (InputFun (hc_input mx))) g = Ok (m, traj) /\
      hc_tapes m = map (@cf_tape Q sym) cs /\
      Forall2 (fun s c => activities W s = Ok (Some [(0, (cf_q c, cf_p c))])) traj cs.
Proof.
  intros Q BA BN EQ W table term mx net m0 g fuel ts q0 p0 tape cs Hst Hl Hi Hr Hw Hp En Em Hrun Hf Hs.
  rewrite hc_network_net1 in En. injection En as <-.
  pose proof (hc_evolve W table term mx g fuel ts q0 p0 tape m0 Hst (conj Hl Hi) Hw Hr Hp Em) as Hev. cbv zeta in Hev.
  assert (Ee : exec table term mx fuel 0 (mkConf q0 p0 tape) = Ran cs).
  { apply exec_ran. split; [assumption|]. split; [assumption|]. intros k a E. specialize (Hs k a E). cbn [Nat.add]. replace (k + 1)%nat with (Datatypes.S k) by lia.
    destruct (Nat.eqb_spec (Datatypes.S k) (length cs)); [apply stopped_iff|apply stopped_no]; tauto. }
  rewrite Ee in Hev. exact Hev.
Qed.
Print Assumptions C44_head_centric_run.

(** conversely, whatever evolve returns is such a run *)
Theorem C44_head_centric_only : forall {Q BA BN} `{EqD Q} (W : env Z Z (Q * Z) BA BN) table term mx net m0 (g : @args Z Z (Q * Z) head_centric Z) fuel ts q0 p0 tape m traj,
    static g (hc_rule table term) -> e_lab W 0 = 0 -> e_idx W 0 = Some 0 ->
    Forall readable tape -> writes_readable table -> 0 <= p0 < Z.of_nat (length tape) ->
    hc_network = Ok net -> hc_init term mx tape p0 = Ok m0 ->
    evolve W fuel m0 net (Some (hc_initial_conditions q0 p0)) ts (Some (InputFun (hc_input mx))) g = Ok (m, traj) ->
    exists cs, run_from table (mkConf q0 p0 tape) cs /\
      (forall i c, nth_error cs i = Some c -> stopped term mx i c <-> Datatypes.S i = length cs) /\
      hc_tapes m = map (@cf_tape Q sym) cs /\
      Forall2 (fun s c => activities W s = Ok (Some [(0, (cf_q c, cf_p c))])) traj cs.
Proof.
  intros Q BA BN EQ W table term mx net m0 g fuel ts q0 p0 tape m traj Hst Hl Hi Hr Hw Hp En Em Eev.
  rewrite hc_network_net1 in En. injection En as <-.
  pose proof (hc_evolve W table term mx g fuel ts q0 p0 tape m0 Hst (conj Hl Hi) Hw Hr Hp Em) as Hev. cbv zeta in Hev.
  destruct (exec table term mx fuel 0 (mkConf q0 p0 tape)) as [cs| |] eqn:Ee.
  - destruct Hev as (m' & traj' & E & H1 & H2). rewrite Eev in E. injection E as <- <-. apply exec_ran in Ee. destruct Ee as (Hrun & Hf & Hs). exists cs. split; [assumption|]. split; [|auto].
    intros i c E. specialize (Hs i c E). cbn [Nat.add] in Hs. replace (i + 1)%nat with (Datatypes.S i) in Hs by lia. rewrite <- stopped_iff, Hs. apply Nat.eqb_eq.
  - destruct Hev as (msg & E). congruence.
  - congruence.
Qed.
Print Assumptions C44_head_centric_only.

(** a run that reaches a configuration without a successor raises; one that does not end within the fuel does not return *)
Theorem C44_head_centric_stuck : forall {Q BA BN} `{EqD Q} (W : env Z Z (Q * Z) BA BN) table term mx net m0 (g : @args Z Z (Q * Z) head_centric Z) fuel ts q0 p0 tape cs a,
    static g (hc_rule table term) -> e_lab W 0 = 0 -> e_idx W 0 = Some 0 ->
    Forall readable tape -> writes_readable table -> 0 <= p0 < Z.of_nat (length tape) ->
    hc_network = Ok net -> hc_init term mx tape p0 = Ok m0 ->
    run_from table (mkConf q0 p0 tape) cs -> (length cs <= fuel)%nat ->
    (forall i c, nth_error cs i = Some c -> ~ stopped term mx i c) ->
    nth_error cs (length cs - 1) = Some a -> next table a = None ->
    exists msg, evolve W fuel m0 net (Some (hc_initial_conditions q0 p0)) ts (Some (InputFun (hc_input mx))) g = Err (Raise msg).
Proof.
  intros Q BA BN EQ W table term mx net m0 g fuel ts q0 p0 tape cs a Hst Hl Hi Hr Hw Hp En Em Hrun Hf Hs Ea Hno.
  rewrite hc_network_net1 in En. injection En as <-.
  pose proof (hc_evolve W table term mx g fuel ts q0 p0 tape m0 Hst (conj Hl Hi) Hw Hr Hp Em) as Hev. cbv zeta in Hev.
  rewrite (exec_stuck table term mx fuel 0 _ cs a Hrun Hf Ea Hno) in Hev; [exact Hev|]. intros k b E. apply stopped_no, Hs. assumption.
Qed.
Print Assumptions C44_head_centric_stuck.

Theorem C44_head_centric_diverges : forall {Q BA BN} `{EqD Q} (W : env Z Z (Q * Z) BA BN) table term mx net m0 (g : @args Z Z (Q * Z) head_centric Z) fuel ts q0 p0 tape cs,
    static g (hc_rule table term) -> e_lab W 0 = 0 -> e_idx W 0 = Some 0 ->
    Forall readable tape -> writes_readable table -> 0 <= p0 < Z.of_nat (length tape) ->
    hc_network = Ok net -> hc_init term mx tape p0 = Ok m0 ->
    run_from table (mkConf q0 p0 tape) cs -> (fuel < length cs)%nat ->
    (forall i c, nth_error cs i = Some c -> ~ stopped term mx i c) ->
    evolve W fuel m0 net (Some (hc_initial_conditions q0 p0)) ts (Some (InputFun (hc_input mx))) g = Err OutOfFuel.
Proof.
  intros Q BA BN EQ W table term mx net m0 g fuel ts q0 p0 tape cs Hst Hl Hi Hr Hw Hp En Em Hrun Hf Hs.
  rewrite hc_network_net1 in En. injection En as <-.
  pose proof (hc_evolve W table term mx g fuel ts q0 p0 tape m0 Hst (conj Hl Hi) Hw Hr Hp Em) as Hev. cbv zeta in Hev.
  rewrite (exec_unfinished table term mx fuel 0 _ cs Hrun Hf) in Hev; [exact Hev|]. intros k b _ E. apply stopped_no, (Hs k b). assumption.
Qed.
Print Assumptions C44_head_centric_diverges.

(** max_timesteps = k >= 1 bounds the number of configurations: evolve ends (with a result or an exception) given fuel k *)
Theorem C44_max_timesteps : forall {Q BA BN} `{EqD Q} (W : env Z Z (Q * Z) BA BN) table term k net m0 (g : @args Z Z (Q * Z) head_centric Z) fuel ts q0 p0 tape,
    static g (hc_rule table term) -> e_lab W 0 = 0 -> e_idx W 0 = Some 0 ->
    Forall readable tape -> writes_readable table -> 0 <= p0 < Z.of_nat (length tape) ->
    hc_network = Ok net -> hc_init term (Some k) tape p0 = Ok m0 -> 1 <= k -> (Z.to_nat k <= fuel)%nat ->
    match evolve W fuel m0 net (Some (hc_initial_conditions q0 p0)) ts (Some (InputFun (hc_input (Some k)))) g with
    | Ok (m, traj) => Z.of_nat (length traj) <= k /\ length (hc_tapes m) = length traj
    | Err e => exists msg, e = Raise msg
    end.
Proof.
  intros Q BA BN EQ W table term k net m0 g fuel ts q0 p0 tape Hst Hl Hi Hr Hw Hp En Em Hk Hf.
  rewrite hc_network_net1 in En. injection En as <-.
  pose proof (hc_evolve W table term (Some k) g fuel ts q0 p0 tape m0 Hst (conj Hl Hi) Hw Hr Hp Em) as Hev. cbv zeta in Hev.
  assert (Hg : forall fuel i c, Z.of_nat i + 1 <= k -> (Z.to_nat k <= i + fuel)%nat ->
    match exec table term (Some k) fuel i c with Ran cs => Z.of_nat (i + length cs) <= k | Stuck => True | Unfinished => False end).
  { clear. induction fuel as [|fuel IH]; intros i c Hi Hf; [lia|]. cbn [exec]. destruct (stopb term (Some k) i c) eqn:Es; [cbn [length]; lia|].
    destruct (next table c) as [c'|]; [|exact I]. apply stopped_no in Es. assert (Z.of_nat i + 1 <> k) by (intros E; apply Es; left; congruence).
    specialize (IH (i + 1)%nat c' ltac:(lia) ltac:(lia)). destruct (exec table term (Some k) fuel (i + 1) c'); [cbn [length]; lia|exact I|assumption]. }
  specialize (Hg fuel 0%nat (mkConf q0 p0 tape) ltac:(lia) ltac:(lia)).
  destruct (exec table term (Some k) fuel 0 (mkConf q0 p0 tape)) as [cs| |]; [|destruct Hev as (msg & ->); eauto|contradiction].
  destruct Hev as (m & traj & -> & H1 & H2). rewrite H1, map_length, (Forall2_len _ _ _ H2). split; [cbn [Nat.add] in Hg; assumption|reflexivity].
Qed.
Print Assumptions C44_max_timesteps.

(** what activities_for_plotting shows for such a run *)
Theorem C44_plotting : forall {Q BA BN} `{EqD Q} (W : env Z Z (Q * Z) BA BN) (str : Q -> string) cs m traj n,
    cs <> [] -> hc_tapes m = map (@cf_tape Q sym) cs -> Forall2 (fun s c => activities W s = Ok (Some [(0, (cf_q c, cf_p c))])) traj cs ->
    (forall c, In c cs -> length (cf_tape c) = n /\ 0 <= cf_p c < Z.of_nat n) ->
    hc_activities_for_plotting W str m traj =
    Ok (map (@cf_tape Q sym) cs, map (fun c => map (fun j => if j =? cf_p c then Some (str (cf_q c)) else None) (zrange 0 (Z.of_nat n))) cs).
Proof.
  intros Q BA BN EQ W str cs m traj n Hne Ht Hf Hb. unfold hc_activities_for_plotting.
  assert (Ea : get_activities_over_time_as_list W Z.leb traj = Ok (map (fun c => [(cf_q c, cf_p c)]) cs)).
  { clear Ht Hb Hne. induction Hf as [|s c traj cs Es Hf IH]; [reflexivity|]. change (s :: traj) with ([s] ++ traj). rewrite acts_list_app, IH.
    unfold get_activities_over_time_as_list. cbn [rfold]. rewrite Es. reflexivity. }
  rewrite Ea. cbn [rbind]. rewrite (rmap_ok _ (fun h : list (Q * Z) => match h with x :: _ => (str (fst x), snd x) | [] => ("", 0) end)).
  2: { intros h Hh. apply in_map_iff in Hh. destruct Hh as (c & <- & _). reflexivity. }
  cbn [rbind]. rewrite Ht.
  assert (El : exists c, In c cs /\ py_nth (map (@cf_tape Q sym) cs) (-1) = Some (cf_tape c)).
  { destruct (exists_last Hne) as (cs' & c & ->). exists c. split; [apply in_or_app; right; left; reflexivity|]. rewrite map_app. apply py_nth_last. }
  destruct El as (c & Hin & El). rewrite El. cbn [of_opt rbind]. rewrite (proj1 (Hb c Hin)), map_map. cbn [fst snd].
  set (hs := map (fun c0 : conf Q sym => (str (cf_q c0), cf_p c0)) cs).
  replace (length (map (@cf_tape Q sym) cs)) with (length hs) by (unfold hs; rewrite !map_length; reflexivity).
  rewrite annotate_ok.
  - cbn [rbind]. unfold hs. rewrite map_map. reflexivity.
  - apply Forall_forall. intros h Hh. unfold hs in Hh. apply in_map_iff in Hh. destruct Hh as (c0 & <- & Hc). apply Hb. assumption.
Qed.
Print Assumptions C44_plotting.

(** ** C45. Tape-centric machines *)
Lemma shows_row {S BA BN} (W : env Z Z S BA BN) (d : dict Z S) tape row : shows d tape ->
  Forall2 (fun k a => dget d k = Some a) (sorted Z.leb (dkeys d)) row -> row = tape.
Proof.
  intros (Hnd & Hk & Hg) Hf. assert (E : sorted Z.leb (dkeys d) = zrange 0 (Z.of_nat (length tape))).
  { apply asc_unique; [|apply asc_zrange|].
    - assert (Hs : StronglySorted (fun x y => Z.leb x y = true) (sorted Z.leb (dkeys d))) by (apply sorted_sorted; intros; rewrite ?Z.leb_le in *; lia).
      assert (Hn : NoDup (sorted Z.leb (dkeys d))) by (eapply Permutation_NoDup; [symmetry; apply sorted_perm|assumption]).
      clear Hf. revert Hs Hn. generalize (sorted Z.leb (dkeys d)). intros l0 Hs. induction Hs as [|x l Hs IH Hx]; intros Hn; [constructor|]. inversion Hn as [|y l' Hni Hn']. subst. constructor; [apply IH; assumption|]. rewrite Forall_forall in Hx |- *. intros y Hy. specialize (Hx y Hy). apply Z.leb_le in Hx.
      assert (x <> y) by (intros ->; contradiction). lia.
    - intros k. rewrite in_zrange, <- Hk. split; apply Permutation_in; [|symmetry]; apply sorted_perm. }
  rewrite E in Hf. apply nth_error_ext. intros i. destruct (Nat.lt_ge_cases i (length tape)) as [Hi|Hi].
  - destruct (nth_error row i) as [a|] eqn:Ea; [|apply nth_error_None in Ea; pose proof (Forall2_len _ _ _ Hf) as El; rewrite length_zrange in El; lia].
    assert (Ez : nth_error (zrange 0 (Z.of_nat (length tape))) i = Some (0 + Z.of_nat i)) by (apply nth_error_zrange; lia).
    pose proof (Forall2_at _ _ _ i _ _ Hf Ez Ea) as Ed. cbn beta in Ed. rewrite Hg in Ed by lia. replace (Z.to_nat (0 + Z.of_nat i)) with i in Ed by lia. congruence.
  - rewrite (proj2 (nth_error_None row i)), (proj2 (nth_error_None tape i)) by (try (pose proof (Forall2_len _ _ _ Hf) as El; rewrite length_zrange in El); lia). reflexivity.
Qed.

Lemma shows_rows {Q S BA BN} (W : env Z Z S BA BN) traj ds (cs : list (conf Q S)) : Forall2 (fun s d => activities W s = Ok (shown_acts d)) traj ds ->
  Forall2 (fun d c => shows d (cf_tape c)) ds cs -> Forall (fun c => cf_tape c <> []) cs -> get_activities_over_time_as_list W Z.leb traj = Ok (map (@cf_tape Q S) cs).
Proof.
  intros Hf Hs Hne. destruct (acts_list_ok W Z.leb traj (map shown_acts ds)) as (rows & E & Hr).
  - clear Hs. induction Hf; constructor; auto.
  - intros d Hd. apply in_map_iff in Hd. destruct Hd as (d' & Ed & Hin). destruct (Forall2_in_l _ _ _ _ Hs Hin) as (c & _ & Hnd & _). destruct d'; [discriminate|]. injection Ed as <-. assumption.
  - rewrite E. f_equal. clear E Hf. revert rows Hr. induction Hs as [|d c ds cs Hd Hs IH]; intros rows Hr; [inversion Hr; reflexivity|].
    inversion Hne as [|c' cs' Hc Hne' Ec]. subst. cbn [map flat_map] in Hr. assert (Hdn : d <> []).
    { intros ->. destruct Hd as (_ & Hk & _). destruct (cf_tape c) as [|x l]; [congruence|]. apply (Hk 0). cbn [length]. lia. }
    assert (Esh : shown_acts d = Some d) by (destruct d; [congruence|reflexivity]). rewrite Esh in Hr. replace (match d with [] => [] | _ => [d] end) with [d] in Hr by (destruct d; [congruence|reflexivity]).
    cbn [app] in Hr. inversion Hr as [|d' r ds' rows' Hrow Hrest]. subst. cbn [map]. f_equal; [apply (shows_row W d); assumption|apply IH; assumption].
Qed.

(** [c] gives the initial tape; the T successive configurations are what T timesteps compute *)
Theorem C45_tape_centric_run : forall {Q S BA BN I} `{EqD Q} `{EqD S} (W : env Z Z S BA BN) table n net fuel q0 p0 tape (g : @args Z Z S (tape_centric Q) I) cs,
    static g (tc_rule table) -> 3 <= n -> tc_network n = Ok net -> (forall i, e_lab W i = Z.of_nat i) ->
    0 <= p0 < n -> Z.of_nat (length tape) = n ->
    run_from table (mkConf q0 p0 tape) cs -> (length cs <= fuel)%nat ->
    exists m traj, evolve W fuel (tc_init q0 p0) net (Some (CList tape)) (Some (Z.of_nat (length cs))) None g = Ok (m, traj) /\
      tc_history m = map (fun c => (cf_q c, cf_p c)) cs /\
      get_activities_over_time_as_list W Z.leb traj = Ok (map (@cf_tape Q S) cs) /\
      Forall2 (fun s c => exists d, activities W s = Ok (Some d) /\ NoDup (dkeys d) /\ (forall k, In k (dkeys d) <-> 0 <= k < n) /\
                 forall k, 0 <= k < n -> dget d k = nth_error (cf_tape c) (Z.to_nat k)) traj cs /\
      forall str, tc_head_activities W str n m traj =
        Ok (map (fun c => map (fun j => if j =? cf_p c then Some (str (cf_q c)) else None) (zrange 0 n)) cs).
Proof.
  intros Q S BA BN I EQ ES W table n net fuel q0 p0 tape g cs Hst Hn Enet Hlab Hp Hl Hrun Hf.
  destruct (tape_run W table n net Hn Enet fuel q0 p0 tape (CList tape) (Z.of_nat (length cs)) g cs Hst Hp Hl (shows_list W tape Hlab) ltac:(lia) Hrun eq_refl) as (m & traj & ds & E & Hh & Hs & Hd).
  exists m, traj. split; [assumption|]. split; [assumption|].
  assert (Hlen : forall c, In c cs -> good c /\ Z.of_nat (length (cf_tape c)) = n).
  { intros c Hin. apply In_nth_error in Hin. destruct Hin as [k Ek]. destruct (run_good table (mkConf q0 p0 tape) cs Hrun ltac:(unfold good; cbn; lia) k c Ek) as [Hg Hlc]. split; [assumption|]. cbn [cf_tape] in Hlc. lia. }
  assert (Er : get_activities_over_time_as_list W Z.leb traj = Ok (map (@cf_tape Q S) cs)).
  { apply (shows_rows W traj ds cs Hs Hd). apply Forall_forall. intros c Hc. apply Hlen in Hc. destruct Hc as [_ Hc]. intros E0. rewrite E0 in Hc. cbn in Hc. lia. }
  split; [assumption|]. split.
  - apply Forall2_nth_intro; [rewrite (Forall2_len _ _ _ Hs), (Forall2_len _ _ _ Hd); reflexivity|]. intros k s c Es Ec.
    destruct (nth_error ds k) as [d|] eqn:Ed; [|apply nth_error_None in Ed; assert (k < length cs)%nat by (apply nth_error_Some; congruence); rewrite (Forall2_len _ _ _ Hd) in Ed; lia].
    pose proof (Forall2_at _ _ _ k _ _ Hs Es Ed) as Ha. destruct (Forall2_at _ _ _ k _ _ Hd Ed Ec) as (Hnd & Hk & Hg). destruct (Hlen c (nth_error_In _ _ Ec)) as [_ Hlc]. rewrite Hlc in Hk, Hg.
    exists d. split; [|auto]. destruct d as [|x d]; [|exact Ha]. exfalso. apply (Hk 0). lia.
  - intros str. unfold tc_head_activities. rewrite Er. cbn [rbind]. rewrite Hh, map_length, map_map. cbn [fst snd].
    set (hs := map (fun c : conf Q S => (str (cf_q c), cf_p c)) cs).
    change (map (fun x : conf Q S => (str (fst (head x)), snd (head x))) cs) with hs.
    replace (length cs) with (length hs) by apply map_length. rewrite annotate_ok.
    + unfold hs. rewrite map_map. rewrite Z2Nat.id by lia. reflexivity.
    + apply Forall_forall. intros h Hin. unfold hs in Hin. apply in_map_iff in Hin. destruct Hin as (c & <- & Hc). cbn [snd]. destruct (Hlen c Hc) as [Hg Hlc]. unfold good in Hg. lia.
Qed.
Print Assumptions C45_tape_centric_run.

(** a machine that reaches a configuration without a successor raises. [no_negative]: Python accepts the directions -1, -2, -3
    as indices into the three neighbours, see below. *)
Theorem C45_tape_centric_stuck : forall {Q S BA BN I} `{EqD Q} `{EqD S} (W : env Z Z S BA BN) table n net fuel T q0 p0 tape (g : @args Z Z S (tape_centric Q) I) cs a,
    static g (tc_rule table) -> 3 <= n -> tc_network n = Ok net -> (forall i, e_lab W i = Z.of_nat i) ->
    0 <= p0 < n -> Z.of_nat (length tape) = n -> no_negative table ->
    run_from table (mkConf q0 p0 tape) cs -> Z.of_nat (length cs) < T -> (Z.to_nat T <= fuel)%nat ->
    nth_error cs (length cs - 1) = Some a -> next table a = None ->
    exists e, evolve W fuel (tc_init q0 p0) net (Some (CList tape)) (Some T) None g = Err e /\ e <> OutOfFuel /\ e <> Unmodelled.
Proof.
  intros Q S BA BN I EQ ES W table n net fuel T q0 p0 tape g cs a Hst Hn Enet Hlab Hp Hl Hneg Hrun HT Hf Ea Hno.
  exists (failure table a). split; [apply (tape_stuck W table n net Hn Enet fuel q0 p0 tape (CList tape) T g cs a Hst Hp Hl (shows_list W tape Hlab) Hneg Hf Hrun HT Ea Hno)|].
  unfold failure. destruct (nth_error (cf_tape a) (Z.to_nat (cf_p a))) as [s|]; [destruct (entry table (cf_q a) s)|]; split; discriminate.
Qed.
Print Assumptions C45_tape_centric_stuck.

(** both machines compute the same run: tapes, states and positions agree timestep by timestep *)
Theorem C45_machines_agree : forall {Q BA BN BA' BN' I} `{EqD Q} (W : env Z Z (Q * Z) BA BN) (W' : env Z Z sym BA' BN') table mx k net net' m0 fuel fuel' ts q0 p0 tape
      (g : @args Z Z (Q * Z) head_centric Z) (g' : @args Z Z sym (tape_centric Q) I) n m traj,
    static g (hc_rule table None) -> e_lab W 0 = 0 -> e_idx W 0 = Some 0 -> static g' (tc_rule table) -> (forall i, e_lab W' i = Z.of_nat i) ->
    Forall readable tape -> writes_readable table -> mx = Some k -> 3 <= n -> Z.of_nat (length tape) = n -> 0 <= p0 < n ->
    hc_network = Ok net -> hc_init (Q := Q) None mx tape p0 = Ok m0 -> tc_network n = Ok net' -> (Z.to_nat k <= fuel')%nat ->
    evolve W fuel m0 net (Some (hc_initial_conditions q0 p0)) ts (Some (InputFun (hc_input mx))) g = Ok (m, traj) ->
    exists m' traj', evolve W' fuel' (tc_init q0 p0) net' (Some (CList tape)) (Some k) None g' = Ok (m', traj') /\
      get_activities_over_time_as_list W' Z.leb traj' = Ok (hc_tapes m) /\
      Forall2 (fun s h => activities W s = Ok (Some [(0, h)])) traj (tc_history m').
Proof.
  intros Q BA BN BA' BN' I EQ W W' table mx k net net' m0 fuel fuel' ts q0 p0 tape g g' n m traj Hst Hl Hi Hst' Hl' Hr Hw -> Hn Hlen Hp En Em En' Hf E.
  destruct (C44_head_centric_only W table None (Some k) net m0 g fuel ts q0 p0 tape m traj Hst Hl Hi Hr Hw ltac:(lia) En Em E) as (cs & Hrun & Hs & Ht & Ha).
  assert (Hk : Z.of_nat (length cs) = k).
  { pose proof Hrun as [Hz _]. destruct cs as [|c cs']; [discriminate|]. destruct (nth_error (c :: cs') (length cs')) as [cl|] eqn:El; [|apply nth_error_None in El; cbn [length] in El; lia].
    destruct (proj2 (Hs _ _ El) eq_refl) as [E1|[_ E1]]; [|discriminate]. cbn [length]. injection E1 as ->. lia. }
  destruct (C45_tape_centric_run W' table n net' fuel' q0 p0 tape g' cs Hst' Hn En' Hl' Hp Hlen Hrun ltac:(lia)) as (m' & traj' & E' & Hh & Hrows & _ & _).
  rewrite Hk in E'. exists m', traj'. split; [assumption|]. split; [rewrite Ht; assumption|]. rewrite Hh. clear - Ha. induction Ha; constructor; auto.
Qed.
Print Assumptions C45_machines_agree.

(** ** Examples: the machine on page 79 (figure b) of A New Kind of Science, as in demos/turing_machine *)
Definition nks : dict Z (dict sym (Z * sym * Z)) :=
  [(1, [(SInt 1, (1, SInt 0, RIGHT)); (SInt 0, (2, SInt 1, RIGHT))]); (2, [(SInt 1, (1, SInt 1, LEFT)); (SInt 0, (2, SInt 1, LEFT))])].
Definition zeros : list sym := repeat (SInt 0) 5.
Definition Wh : env Z Z (Z * Z) unit unit :=
  mkEnv Z.of_nat Some (fun _ => 0) (fun _ => Err Unmodelled) (fun _ => Err Unmodelled) (fun _ => Err Unmodelled) (fun _ => Err Unmodelled).
Definition Wt : env Z Z sym unit unit :=
  mkEnv Z.of_nat Some (fun _ => 0) (fun _ => Err Unmodelled) (fun _ => Err Unmodelled) (fun _ => Err Unmodelled) (fun _ => Err Unmodelled).
Definition gh (table : dict Z (dict sym (Z * sym * Z))) term : @args Z Z (Z * Z) head_centric Z :=
  mkArgs (Some (hc_rule table term)) None None [] ACTIVITIES_FIRST true false true true false None.
Definition gt (table : dict Z (dict sym (Z * sym * Z))) : @args Z Z sym (tape_centric Z) Z :=
  mkArgs (Some (tc_rule table)) None None [] ACTIVITIES_FIRST true false true true false None.
Definition start_nks : conf Z sym := mkConf 1 3 zeros.
Fixpoint iterate (table : dict Z (dict sym (Z * sym * Z))) (k : nat) (c : conf Z sym) : list (conf Z sym) :=
  match k with O => [] | Datatypes.S k => c :: match next table c with Some c' => iterate table k c' | None => [] end end.
Lemma iterate_run table k c : run_from table c (iterate table (Datatypes.S k) c).
Proof.
  revert c. induction k as [|k IH]; intros c; cbn [iterate].
  - split; [reflexivity|]. intros i a b E1 E2. destruct (next table c); cbn in E2; destruct (i + 1)%nat eqn:Ei; try lia; destruct n; discriminate.
  - split; [reflexivity|]. destruct (next table c) as [c'|] eqn:En.
    + destruct (IH c') as [Hz Hn]. intros [|i] a b E1 E2; [injection E1 as <-; change (Some c' = Some b) in E2; congruence|]. apply (Hn i); assumption.
    + intros i a b E1 E2. destruct (i + 1)%nat eqn:Ei; [lia|]. destruct n; discriminate.
Qed.
Definition run_nks : list (conf Z sym) := Eval vm_compute in iterate nks 8 start_nks.

Lemma nks_entry q s x : entry nks q s = Some x ->
  x = (1, SInt 0, RIGHT) \/ x = (2, SInt 1, RIGHT) \/ x = (1, SInt 1, LEFT) \/ x = (2, SInt 1, LEFT).
Proof.
  unfold entry, nks. cbn [dget]. repeat match goal with |- context[if ?b then _ else _] => destruct b end; cbn [dget];
    repeat match goal with |- context[if ?b then _ else _] => destruct b end; intros E; try discriminate; injection E as <-; tauto.
Qed.
Example C44_nonvacuous : exists net m0,
  static (gh nks None) (hc_rule nks None) /\ Forall readable zeros /\ writes_readable nks /\ 0 <= 3 < Z.of_nat (length zeros) /\
  hc_network = Ok net /\ hc_init (Q := Z) None (Some 8) zeros 3 = Ok m0 /\ run_from nks (mkConf 1 3 zeros) run_nks /\
  (forall i c, nth_error run_nks i = Some c -> stopped None (Some 8) i c <-> Datatypes.S i = length run_nks).
Proof.
  eexists. eexists. split; [unfold static; splits; reflexivity|]. split; [repeat constructor|]. split; [intros q s q' s' d E; apply nks_entry in E; destruct E as [E|[E|[E|E]]]; injection E as -> -> ->; exact I|].
  split; [cbn; lia|]. split; [apply hc_network_net1|]. split; [reflexivity|]. split; [apply (iterate_run nks 7 start_nks)|].
  intros i c E. unfold stopped. change (length run_nks) with 8%nat. split; [intros [E1|[_ E1]]; [injection E1; lia|discriminate]|]. intros Hi. left. f_equal. lia.
Qed.
(** the run is not trivial: the tape fills, the head moves around *)
Example C44_run_nks : map (fun c => (cf_q c, cf_p c)) run_nks = [(1, 3); (2, 4); (2, 3); (1, 2); (2, 3); (1, 2); (1, 3); (1, 4)] /\
  map (@cf_tape Z sym) run_nks <> repeat zeros 8 /\ Z.of_nat (length run_nks) = 8.
Proof. splits; vm_compute; [reflexivity|discriminate|reflexivity]. Qed.

(** a terminating state: state 9 is entered at the third configuration; [C44_head_centric_run] and [_diverges] differ in it *)
Definition walk : dict Z (dict sym (Z * sym * Z)) :=
  [(1, [(SInt 0, (1, SInt 1, RIGHT)); (SStr "x", (9, SInt 5, STAY))])].
Definition tape_x : list sym := [SInt 0; SStr "x"; SInt 0].
Example C44_terminating : exists m traj net m0, hc_network = Ok net /\ hc_init (Some 9) None tape_x 0 = Ok m0 /\
  evolve Wh 20 m0 net (Some (hc_initial_conditions 1 0)) None (Some (InputFun (hc_input None))) (gh walk (Some 9)) = Ok (m, traj) /\
  hc_tapes m = [[SInt 0; SStr "x"; SInt 0]; [SInt 1; SStr "x"; SInt 0]; [SInt 1; SInt 5; SInt 0]].
Proof. do 4 eexists. split; [vm_compute; reflexivity|]. split; [reflexivity|]. split; [vm_compute; reflexivity|vm_compute; reflexivity]. Qed.
Example C44_stuck_nonvacuous : next walk (mkConf 9 1 [SInt 1; SInt 5; SInt 0]) = None /\ next walk (mkConf 1 0 tape_x) <> None.
Proof. split; vm_compute; [reflexivity|discriminate]. Qed.
Example C44_diverges_nonvacuous : forall fuel, exists cs, run_from nks start_nks cs /\ (fuel < length cs)%nat /\
  (forall i c, nth_error cs i = Some c -> ~ stopped (Some 7) None i c).
Proof.
  assert (Hinv : forall k c, good c -> (cf_q c = 1 \/ cf_q c = 2) -> Forall (fun s => s = SInt 0 \/ s = SInt 1) (cf_tape c) ->
    length (iterate nks k c) = k /\ forall a, In a (iterate nks k c) -> cf_q a = 1 \/ cf_q a = 2).
  { induction k as [|k IH]; intros c Hg Hq Ht; [split; [reflexivity|intros a []]|]. cbn [iterate].
    assert (exists c', next nks c = Some c' /\ (cf_q c' = 1 \/ cf_q c' = 2) /\ Forall (fun s => s = SInt 0 \/ s = SInt 1) (cf_tape c')) as (c' & En & Hq' & Ht').
    { unfold next. destruct (nth_error (cf_tape c) (Z.to_nat (cf_p c))) as [s|] eqn:Es; [|apply nth_error_None in Es; unfold good in Hg; lia].
      assert (Hs : s = SInt 0 \/ s = SInt 1) by (rewrite Forall_forall in Ht; apply Ht; eapply nth_error_In; exact Es).
      assert (Hw : forall w, (w = SInt 0 \/ w = SInt 1) -> Forall (fun s => s = SInt 0 \/ s = SInt 1) (firstn (Z.to_nat (cf_p c)) (cf_tape c) ++ w :: skipn (Z.to_nat (cf_p c) + 1) (cf_tape c))).
      { intros w Hw. rewrite <- (upd_nth_split _ _ (fun _ => w) s Es). apply Forall_forall. intros y Hy. apply In_nth_error in Hy. destruct Hy as [j Ej]. rewrite nth_error_upd_nth in Ej.
        rewrite Forall_forall in Ht. destruct (Nat.eq_dec j (Z.to_nat (cf_p c))); [destruct (nth_error (cf_tape c) j); [injection Ej as <-; assumption|discriminate]|]. apply Ht. eapply nth_error_In. exact Ej. }
      destruct Hq as [-> | ->], Hs as [-> | ->]; cbn; eexists; (split; [reflexivity|]); cbn [cf_q cf_tape]; (split; [auto|apply Hw; auto]). }
    rewrite En. destruct (IH c' (proj1 (next_good nks c c' Hg En)) Hq' Ht') as [Hl Ha]. split; [cbn; lia|]. intros a [<-|Hin]; auto. }
  intros fuel. exists (iterate nks (Datatypes.S fuel) start_nks).
  destruct (Hinv (Datatypes.S fuel) start_nks ltac:(unfold good; cbn; lia) ltac:(left; reflexivity) ltac:(repeat constructor)) as [Hl Ha].
  split; [apply iterate_run|]. split; [rewrite Hl; lia|]. intros i c E [E1|[_ E1]]; [discriminate|]. apply nth_error_In, Ha in E. injection E1 as E1. lia.
Qed.
Example C44_plotting_nonvacuous : hc_activities_for_plotting Wh (fun q => if q =? 1 then "up" else "down") (mkHC [[SInt 0; SInt 0]; [SInt 1; SInt 0]] 1 false)
    [mkState (Some (Raw [(0, (1, 0))])) None; mkState (Some (Raw [(0, (2, 1))])) None] =
  Ok ([[SInt 0; SInt 0]; [SInt 1; SInt 0]], [[Some "up"; None]; [None; Some "down"]]).
Proof. vm_compute. reflexivity. Qed.

(** [readable] is needed: evolve hands the first character of a longer string to the node, and None ends the run *)
Definition words : dict Z (dict sym (Z * sym * Z)) :=
  [(1, [(SStr "ab", (1, SStr "ab", RIGHT)); (SStr "a", (2, SInt 7, STAY))]); (2, [(SInt 7, (2, SInt 7, STAY))])].
Theorem C44_long_symbol_refuted : exists table tape cs m traj net m0,
  hc_network = Ok net /\ hc_init (Q := Z) None (Some 2) tape 0 = Ok m0 /\ run_from table (mkConf 1 0 tape) cs /\
  evolve Wh 20 m0 net (Some (hc_initial_conditions 1 0)) None (Some (InputFun (hc_input (Some 2)))) (gh table None) = Ok (m, traj) /\
  length cs = 2%nat /\ hc_tapes m <> map (@cf_tape Z sym) cs.
Proof.
  exists words, [SStr "ab"; SStr "ab"], (iterate words 2 (mkConf 1 0 [SStr "ab"; SStr "ab"])). do 4 eexists. split; [vm_compute; reflexivity|]. split; [reflexivity|].
  split; [apply iterate_run|]. split; [vm_compute; reflexivity|]. split; [reflexivity|]. vm_compute. discriminate.
Qed.
Definition nones : dict Z (dict sym (Z * sym * Z)) := [(1, [(SNone, (1, SInt 1, RIGHT)); (SInt 1, (1, SInt 0, RIGHT))])].
Theorem C44_none_symbol_refuted : exists table tape cs m traj net m0,
  hc_network = Ok net /\ hc_init (Q := Z) None (Some 4) tape 0 = Ok m0 /\ run_from table (mkConf 1 0 tape) cs /\
  evolve Wh 20 m0 net (Some (hc_initial_conditions 1 0)) None (Some (InputFun (hc_input (Some 4)))) (gh table None) = Ok (m, traj) /\
  length cs = 4%nat /\ length (hc_tapes m) = 2%nat.
Proof.
  exists nones, [SInt 1; SNone; SNone], (iterate nones 4 (mkConf 1 0 [SInt 1; SNone; SNone])). do 4 eexists. split; [vm_compute; reflexivity|]. split; [reflexivity|].
  split; [apply iterate_run|]. split; [vm_compute; reflexivity|]. split; [reflexivity|]. vm_compute. reflexivity.
Qed.
(** starting in the terminating state does not stop the machine: here it runs into a missing entry *)
Example C44_starts_terminated : exists net m0, hc_network = Ok net /\ hc_init (Some 9) None tape_x 0 = Ok m0 /\
  evolve Wh 20 m0 net (Some (hc_initial_conditions 9 0)) None (Some (InputFun (hc_input None))) (gh walk (Some 9)) = Err (Raise "no rule defined").
Proof. do 2 eexists. split; [vm_compute; reflexivity|]. split; [reflexivity|]. vm_compute. reflexivity. Qed.

Example C45_nonvacuous : exists net, static (gt nks) (tc_rule nks) /\ tc_network 5 = Ok net /\ (forall i, e_lab Wt i = Z.of_nat i) /\ Z.of_nat (length zeros) = 5 /\
  no_negative nks /\ run_from nks (mkConf 1 3 zeros) run_nks.
Proof.
  eexists. split; [unfold static; splits; reflexivity|]. split; [vm_compute; reflexivity|]. split; [reflexivity|]. split; [reflexivity|].
  split; [intros q s q' s' d E; apply nks_entry in E; destruct E as [E|[E|[E|E]]]; injection E as -> -> ->; vm_compute; discriminate|]. apply (iterate_run nks 7 start_nks).
Qed.
Example C45_run_example : exists m traj net, tc_network 5 = Ok net /\
  evolve Wt 8 (tc_init 1 3) net (Some (CList zeros)) (Some 8) None (gt nks) = Ok (m, traj) /\ tc_history m = map (fun c => (cf_q c, cf_p c)) run_nks.
Proof. do 3 eexists. split; [vm_compute; reflexivity|]. split; [vm_compute; reflexivity|]. vm_compute. reflexivity. Qed.

(** direction -1 is taken from the end of the neighbour list: the tape-centric machine moves right, the head-centric one raises *)
Definition negative : dict Z (dict sym (Z * sym * Z)) := [(1, [(SInt 0, (1, SInt 1, -1))])].
Theorem C45_negative_direction_refuted : exists table a m traj net,
  tc_network 5 = Ok net /\ next table a = None /\ a = mkConf 1 3 zeros /\
  evolve Wt 8 (tc_init 1 3) net (Some (CList zeros)) (Some 3) None (gt table) = Ok (m, traj) /\ tc_history m = [(1, 3); (1, 4); (1, 0)].
Proof.
  exists negative, (mkConf 1 3 zeros). do 3 eexists. split; [vm_compute; reflexivity|]. split; [reflexivity|]. split; [reflexivity|]. split; [vm_compute; reflexivity|]. vm_compute. reflexivity.
Qed.
(** n < 3 *)
Example C45_small : exists e, tc_network 2 = Err e.
Proof. eexists. vm_compute. reflexivity. Qed.
