(** Property theorems for CTRBLRule and LangtonsLoop (C41 - C43, C66). *)
From Verif Require Import Py PyFacts ListFacts Network Topology Evolve EvolveSpec EvolveStatic PropEvolve.
From Verif Require Import Ctrbl CtrblSpec CtrblProofs Langton LangtonProofs.
Open Scope string_scope.
Open Scope list_scope.
Open Scope Z_scope.

(** C41. Labels are row * cols + column. *)
Theorem C41_neighbourhoods : forall (A : Type) (EA : EqD A) rows cols (t : dict (list A) A) rot obj,
    0 < rows -> 0 < cols -> 9 <= rows * cols -> ctrbl_init rows cols t rot = Ok obj ->
    (forall v, In v (nodes (cr_network obj)) <-> 0 <= v < rows * cols) /\
    (forall a b, 0 <= a < rows -> 0 <= b < cols ->
       (exists rs, net_rot (cr_network obj) = Some rs /\ dget rs (a * cols + b) = Some (ctrbl_cells rows cols a b)) /\
       exists inc, in_edges (cr_network obj) (a * cols + b) = Ok inc /\ forall u, In u (dkeys inc) <-> In u (ctrbl_cells rows cols a b)) /\
    (forall a b, 0 <= a < rows -> 0 <= b < cols -> exists v, dget (cr_map obj) (a * cols + b) = Some v /\
       [vn_center v; vn_top v; vn_right v; vn_bottom v; vn_left v] = ctrbl_cells rows cols a b).
Proof.
  intros A EA rows cols t rot obj Hr Hc Hn E.
  destruct (ctrbl_network rows cols t rot Hr Hc Hn) as (net & Hnd & Hnodes & Hnb & Ei). rewrite E in Ei.
  destruct (init_rule_table t rot) as [t'|e]; [|discriminate]. cbn [rbind] in Ei. injection Ei as ->. cbn [cr_network cr_map].
  split; [assumption|]. split.
  - intros a b Ha Hb. destruct (Hnb a b Ha Hb) as [N I]. split; [|assumption]. unfold nbrs_of in N. destruct (net_rot net) as [rs|] eqn:Er; [eauto|].
    exfalso. destruct N as (inc & Ein & El). unfold ctrbl_init in E. destruct (cellular_automaton2d _ _ _ _ _) as [net0|]; [|discriminate]. cbn [rbind] in E.
    destruct (rfold _ (nodes net0) []) as [rs|]; [|discriminate]. cbn [rbind] in E. unfold set_rotation_system in E. destruct (forallb _ rs); [|discriminate].
    destruct (init_rule_table t rot); [|discriminate]. cbn [rbind] in E. injection E as E _. rewrite <- E in Er. discriminate.
  - intros a b Ha Hb. exists (vn_at rows cols a (a * cols + b)). split; [|apply vn_at_cell; assumption].
    rewrite (neighbourhood_map_spec rows cols Hr Hc (a * cols + b)). destruct (Z.leb_spec 0 (a * cols + b)); [|nia]. destruct (Z.ltb_spec (a * cols + b) (rows * cols)); [|nia].
    cbn [andb]. f_equal. f_equal. symmetry. apply Z.div_unique with b; lia.
Qed.
Print Assumptions C41_neighbourhoods.

(** so the rule is given the states of centre, top, right, bottom, left, in this order *)
Theorem C41_rule_key : forall (A I BA BN : Type) (EA : EqD A) (W : env Z Z A BA BN) rows cols (t : dict (list A) A) rot obj S tm past inp a b (x : node_ctx Z Z A I),
    0 < rows -> 0 < cols -> 9 <= rows * cols -> ctrbl_init rows cols t rot = Ok obj -> 0 <= a < rows -> 0 <= b < cols ->
    ctx_for W (cr_network obj) S tm past inp (a * cols + b) x ->
    Forall2 (fun c s => dget S c = Some s) (ctrbl_cells rows cols a b) (x_nacts x) /\
    (forall s, dget (cr_table obj) (x_nacts x) = Some s -> ctrbl_rule obj x = Ok s) /\
    (dget (cr_table obj) (x_nacts x) = None -> ctrbl_rule obj x = Err (Raise "neighbourhood state not in rule table")).
Proof.
  intros A I BA BN EA W rows cols t rot obj S tm past inp a b x Hr Hc Hn E Ha Hb Hx.
  destruct (C41_neighbourhoods A EA rows cols t rot obj Hr Hc Hn E) as (_ & Hv & _). destruct (Hv a b Ha Hb) as [(rs & Er & Eg) _].
  pose proof (cf_nbrs _ _ _ _ _ _ _ _ Hx) as N. unfold nbrs_of in N. rewrite Er, Eg in N. injection N as N.
  pose proof (cf_nacts _ _ _ _ _ _ _ _ Hx) as F. rewrite <- N in F. split; [assumption|]. unfold ctrbl_rule.
  assert (Hl : length (x_nacts x) = 5%nat) by (rewrite <- (EvolveProofs2.Forall2_len _ _ _ F); reflexivity).
  split; [intros s ->; reflexivity|intros ->; rewrite Hl; reflexivity].
Qed.
Print Assumptions C41_rule_key.

(** construction succeeds on every grid of at least 9 cells when the table is a dict of 5-tuples, and fails on smaller grids *)
Theorem C41_construction : forall (A : Type) (EA : EqD A) rows cols (t : dict (list A) A) rot,
    (0 < rows -> 0 < cols -> 9 <= rows * cols -> NoDup (dkeys t) -> five t -> exists obj, ctrbl_init rows cols t rot = Ok obj) /\
    (rows * cols < 9 -> ctrbl_init rows cols t rot = Err (Raise "There must be at least 9 cells")).
Proof.
  intros A EA rows cols t rot. split.
  - intros Hr Hc Hn Hnd Hf. destruct (ctrbl_network rows cols t rot Hr Hc Hn) as (net & _ & _ & _ & ->). destruct rot.
    + destruct (init_rule_table_true t Hf) as (t' & -> & _). cbn. eauto.
    + rewrite init_rule_table_false by assumption. cbn. eauto.
  - intros Hs. unfold ctrbl_init, cellular_automaton2d, adj_cellular_automaton2d. destruct (Z.ltb_spec (rows * cols) 9); [reflexivity|lia].
Qed.
Print Assumptions C41_construction.

Example C41_nonvacuous : exists obj, ctrbl_init 4 5 [([1; 0; 0; 1; 0], 1)] true = Ok obj /\
  option_map (fun rs => dget rs 5) (net_rot (cr_network obj)) = Some (Some [5; 0; 6; 10; 9]) /\ ctrbl_cells 4 5 1 0 = [5; 0; 6; 10; 9] /\
  dget (cr_table obj) [1; 1; 0; 0; 0] = Some 1.
Proof. eexists. split; [vm_compute; reflexivity|]. split; [vm_compute; reflexivity|]. split; vm_compute; reflexivity. Qed.

(** C42 *)
Theorem C42_expanded_keys : forall (A : Type) (EA : EqD A) (t : dict (list A) A), five t ->
    exists t', init_rule_table t true = Ok t' /\
      (forall k, In k (dkeys t') <-> exists k0 v, In (k0, v) t /\ turned k0 k) /\
      (forall k v, dget t' k = Some v <-> last_entry t k v).
Proof.
  intros A EA t Hf. destruct (init_rule_table_true t Hf) as (t' & E & Hg). exists t'. split; [assumption|]. split; [apply (table_keys t t' Hf E)|].
  assert (Huniq : forall k v v', last_entry t k v -> last_entry t k v' -> v = v').
  { intros k v v' (p & k0 & s & E1 & Ht & Hs) (p' & k0' & s' & E2 & Ht' & Hs'). rewrite E1 in E2. clear - E2 Ht Hs Ht' Hs'.
    revert p' E2. induction p as [|e p IH]; intros [|e' p'] E2; cbn in E2.
    - congruence.
    - injection E2 as _ E2. exfalso. apply (Hs k0' v'); [|assumption]. rewrite E2. apply in_or_app. right. left. reflexivity.
    - injection E2 as _ E2. exfalso. apply (Hs' k0 v); [|assumption]. rewrite <- E2. apply in_or_app. right. left. reflexivity.
    - injection E2 as _ E2. eauto. }
  intros k v. destruct (Hg k) as [(v' & Hl & Eg)|[Hn Eg]]; rewrite Eg.
  - split; [intros E'; injection E' as <-; assumption|]. intros Hl'. f_equal. apply (Huniq k); assumption.
  - split; [discriminate|]. intros (p & k0 & s & Et & Ht & _). exfalso. apply (Hn k0 v); [|assumption]. rewrite Et. apply in_or_app. right. left. reflexivity.
Qed.
Print Assumptions C42_expanded_keys.

Theorem C42_consistent : forall (A : Type) (EA : EqD A) (t t' : dict (list A) A), five t -> consistent t -> init_rule_table t true = Ok t' ->
    (forall k v k', In (k, v) t -> turned k k' -> dget t' k' = Some v) /\
    (forall k k', turned k k' -> dget t' k = dget t' k') /\
    (forall obj L V I (x y : node_ctx L V A I), cr_table obj = t' -> turned (x_nacts x) (x_nacts y) -> ctrbl_rule obj x = ctrbl_rule obj y).
Proof.
  intros A EA t t' Hf Hc E. split; [apply (table_consistent t t'); assumption|]. split; [apply (table_invariant t t'); assumption|].
  intros obj L V I x y Et Ht. unfold ctrbl_rule. rewrite Et, (table_invariant t t' Hf Hc E _ _ Ht). destruct (turned_len _ _ Ht) as [-> ->]. reflexivity.
Qed.
Print Assumptions C42_consistent.

(** whole runs: starting from the configuration turned by 90 degrees gives the run turned by 90 degrees *)
Theorem C42_runs_commute : forall (A U I BA BN : Type) (EA : EqD A) (W : env Z Z A BA BN) n (t : dict (list A) A) obj fuel fuel' (u0 : U) (c c' : cond Z A) T
      (g : @args Z Z A U I) uf traj,
    9 <= n * n -> 0 < n -> five t -> consistent t -> ctrbl_init n n t true = Ok obj ->
    static g (stateless (ctrbl_rule obj)) -> 1 <= T -> (Z.to_nat T <= fuel')%nat ->
    Z.of_nat (length (to_dict W c')) = n * n ->
    (forall v, 0 <= v < n * n -> exists x, dget (to_dict W c) v = Some x) ->
    quarter_turn n (dget (to_dict W c)) (dget (to_dict W c')) ->
    evolve W fuel u0 (cr_network obj) (Some c) (Some T) None g = Ok (uf, traj) ->
    exists uf' traj', evolve W fuel' u0 (cr_network obj) (Some c') (Some T) None g = Ok (uf', traj') /\
      Forall2 (fun s s' => exists S S', activities W s = Ok (shown_acts S) /\ activities W s' = Ok (shown_acts S') /\ quarter_turn n (dget S) (dget S')) traj traj'.
Proof. intros. eapply turn_run; eassumption. Qed.
Print Assumptions C42_runs_commute.

Theorem C42_without_rotations : forall (A : Type) (EA : EqD A) (t : dict (list A) A), NoDup (dkeys t) -> init_rule_table t false = Ok t.
Proof. exact @init_rule_table_false. Qed.
Print Assumptions C42_without_rotations.

(** an inconsistent table: the explicit entry is lost, and the rule of the resulting object is not the one written down *)
Theorem C42_explicit_entries_kept_refuted : exists (t t' : dict (list Z) Z) k v, five t /\ NoDup (dkeys t) /\
    init_rule_table t true = Ok t' /\ dget t k = Some v /\ dget t' k <> Some v.
Proof.
  exists [([0; 1; 0; 0; 0], 5); ([0; 0; 1; 0; 0], 6)]. eexists. exists [0; 1; 0; 0; 0], 5. split.
  - intros k v [E|[E|[]]]; injection E as <- <-; reflexivity.
  - split; [|split; [vm_compute; reflexivity|split; [reflexivity|vm_compute; discriminate]]].
    repeat constructor; cbn; intuition discriminate.
Qed.
Print Assumptions C42_explicit_entries_kept_refuted.

Definition small_table : dict (list Z) Z :=
  flat_map (fun c => flat_map (fun t => flat_map (fun r => flat_map (fun b => map (fun l => ([c; t; r; b; l], (t + b + r + l + c + t * b + r * l) mod 2)) [0; 1]) [0; 1]) [0; 1]) [0; 1]) [0; 1].

Lemma consistent_check (t : dict (list Z) Z) :
  forallb (fun e => forallb (fun e' => if in_dec (list_eq_dec Z.eq_dec) (fst e') (four (fst e)) then Z.eqb (snd e) (snd e') else true) t) t = true -> consistent t.
Proof.
  intros E k k' v v' Hin Hin' Ht. rewrite forallb_forall in E. specialize (E _ Hin). rewrite forallb_forall in E. specialize (E _ Hin'). cbn [fst snd] in E.
  apply turned_four in Ht. destruct (in_dec _ k' (four k)) as [_|Hn]; [apply Z.eqb_eq; assumption|contradiction].
Qed.
Lemma five_check (t : dict (list Z) Z) : forallb (fun e => Nat.eqb (length (fst e)) 5) t = true -> five t.
Proof. intros E k v Hin. rewrite forallb_forall in E. apply Nat.eqb_eq. apply (E _ Hin). Qed.

Example C42_nonvacuous : five small_table /\ consistent small_table /\ 
  exists obj uf traj, ctrbl_init 3 3 small_table true = Ok obj /\
    evolve W0 5 0 (cr_network obj) (Some (CList [1; 1; 0; 0; 0; 0; 0; 0; 0])) (Some 2) None (base (Some (stateless (ctrbl_rule obj))) None None [] ACTIVITIES_FIRST true) = Ok (uf, traj) /\
    map (fun s => activities W0 s) (skipn 1 traj) = [Ok (Some [(0, 0); (1, 0); (2, 1); (3, 1); (6, 1); (4, 1); (7, 1); (5, 0); (8, 0)])] /\
    quarter_turn 3 (dget (to_dict W0 (CList [1; 1; 0; 0; 0; 0; 0; 0; 0]))) (dget (to_dict W0 (CList [0; 0; 1; 0; 0; 1; 0; 0; 0]))).
Proof.
  split; [apply five_check; vm_compute; reflexivity|]. split; [apply consistent_check; vm_compute; reflexivity|].
  eexists. eexists. eexists. split; [vm_compute; reflexivity|]. split; [vm_compute; reflexivity|]. split; [vm_compute; reflexivity|].
  intros a b Ha Hb. assert (Ea : a = 0 \/ a = 1 \/ a = 2) by lia. assert (Eb : b = 0 \/ b = 1 \/ b = 2) by lia.
  destruct Ea as [->|[->| ->]], Eb as [->|[->| ->]]; reflexivity.
Qed.

(** C43 *)
Theorem C43_langton_table : five langton_table /\ NoDup (dkeys langton_table) /\ consistent langton_table /\
    exists t', init_rule_table langton_table true = Ok t' /\
      (forall k k' v, In (k, v) langton_table -> turned k k' -> dget t' k' = Some v) /\
      (forall k k', turned k k' -> dget t' k = dget t' k') /\
      (forall k v, dget t' k = Some v -> 0 <= v <= 7 /\ forall s, In s k -> 0 <= s <= 7) /\
      dget t' [0; 0; 0; 0; 0] = Some 0 /\
      (forall rows cols obj, langton_init rows cols = Ok obj -> cr_table obj = t').
Proof.
  assert (Hf : five langton_table) by (apply five_check; vm_compute; reflexivity).
  assert (Hc : consistent langton_table) by (apply consistent_check; vm_compute; reflexivity).
  assert (Hs : forall k v, In (k, v) langton_table -> 0 <= v <= 7 /\ forall s, In s k -> 0 <= s <= 7).
  { assert (Hb : forallb (fun e => (0 <=? snd e) && (snd e <=? 7) && forallb (fun s => (0 <=? s) && (s <=? 7)) (fst e)) langton_table = true) by (vm_compute; reflexivity).
    intros k v Hin. rewrite forallb_forall in Hb. specialize (Hb _ Hin). cbn [fst snd] in Hb. apply andb_prop in Hb. destruct Hb as [Hv Hk]. split; [lia|].
    intros s Hin'. rewrite forallb_forall in Hk. specialize (Hk _ Hin'). lia. }
  split; [assumption|]. split.
  { assert (E : nodup (list_eq_dec Z.eq_dec) (dkeys langton_table) = dkeys langton_table) by (vm_compute; reflexivity). rewrite <- E. apply NoDup_nodup. }
  split; [assumption|]. destruct (init_rule_table_true langton_table Hf) as (t' & E & Hg). exists t'. split; [assumption|].
  split; [intros k k' v Hin Ht; apply (table_consistent langton_table t' Hf Hc E k v k' Hin Ht)|]. split; [apply (table_invariant langton_table t' Hf Hc E)|]. split.
  - intros k v Eg. destruct (Hg k) as [(v' & (p & k0 & s & Et & Ht & _) & Eg')|[_ Eg']]; [|congruence].
    assert (v' = v) by congruence. subst v'. destruct (Hs k0 v) as [Hv Hk]; [rewrite Et; apply in_or_app; right; left; reflexivity|]. split; [assumption|].
    intros q Hq. apply Hk. destruct Ht as (c & t & r & b & l & -> & Hin). cbn in Hin. repeat destruct Hin as [<-|Hin]; try contradiction; cbn in *; tauto.
  - split; [apply (table_consistent langton_table t' Hf Hc E [0; 0; 0; 0; 0] 0); [left; reflexivity|apply turned_refl; reflexivity]|].
    intros rows cols obj Ei. unfold langton_init, ctrbl_init in Ei. destruct (cellular_automaton2d _ _ _ _ _) as [net|]; [|discriminate]. cbn [rbind] in Ei.
    destruct (rfold _ (nodes net) []) as [rs|]; [|discriminate]. cbn [rbind] in Ei. destruct (set_rotation_system rs net) as [net' [|]]; [|discriminate].
    rewrite E in Ei. cbn [rbind] in Ei. injection Ei as <-. reflexivity.
Qed.
Print Assumptions C43_langton_table.

Example C43_nonvacuous : length langton_table = 219%nat /\ match init_rule_table langton_table true with Ok t => length t | _ => 0%nat end = 857%nat /\
  match langton_init 4 3 with Ok obj => dget (cr_table obj) [2; 2; 0; 0; 1] | _ => None end = Some 2.
Proof. split; [reflexivity|]. split; vm_compute; reflexivity. Qed.

(** C66. [loops] are the positions (row, column); a cell shows the last loop drawn over it. *)
Theorem C66_init_loops : forall rows cols loops, 0 <= rows -> 0 <= cols ->
    (forall p, In p loops -> 0 <= fst p /\ fst p + 10 <= rows /\ 1 <= snd p /\ snd p + 14 <= cols) ->
    exists l, init_loops rows cols (Z.of_nat (length loops)) (map fst loops) (map snd loops) = Ok l /\ Z.of_nat (length l) = rows * cols /\
      forall a b, 0 <= a < rows -> 0 <= b < cols -> exists s, nth_error l (Z.to_nat (a * cols + b)) = Some s /\
        ((exists pre p post, loops = pre ++ p :: post /\ drawn (a - fst p) (b - snd p) = Some s /\ forall q, In q post -> drawn (a - fst q) (b - snd q) = None) \/
         ((forall q, In q loops -> drawn (a - fst q) (b - snd q) = None) /\ s = 0)).
Proof.
  intros rows cols loops Hr Hc Hin. destruct (init_loops_spec rows cols loops [] Hr Hc Hin) as (l & E & Hl). rewrite app_nil_r in E. eauto.
Qed.
Print Assumptions C66_init_loops.

(** a loop at column 0 wraps around: numpy's index -1 is the last column *)
Theorem C66_column_zero_refuted : exists rows cols l, init_loops rows cols 1 [0] [0] = Ok l /\ nth_error l (Z.to_nat (1 * cols + (cols - 1))) = Some 2.
Proof. exists 10, 14. eexists. split; vm_compute; reflexivity. Qed.
Print Assumptions C66_column_zero_refuted.

Example C66_nonvacuous : exists l, init_loops 12 32 2 [1; 0] [1; 18] = Ok l /\ nth_error l (Z.to_nat (2 * 32 + 2)) = Some 7 /\ drawn 1 1 = Some 7 /\
  nth_error l (Z.to_nat (1 * 32 + 18)) = Some 1 /\ drawn 1 0 = Some 1.
Proof. eexists. split; [vm_compute; reflexivity|]. vm_compute. auto. Qed.
