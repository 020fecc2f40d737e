(** * C47 to C50: the Wolfram physics model *)
From Coq Require Import Permutation Sorted.
From Verif Require Import Py PyFacts ListFacts Network Evolve WolframSpec Wolfram WolframProofs WolframProofs2 WolframProofs3.
Open Scope string_scope.
Open Scope list_scope.
Open Scope Z_scope.

(** ** C47 *)
Theorem C47_round_trip cfg : Forall (fun r => r <> []) cfg ->
  exists net last cfg', init_network_and_conditions cfg = Ok (net, last) /\ network_to_config net = Ok cfg' /\ Permutation cfg' cfg.
Proof.
  intros Hne. destruct (init_built cfg) as (net & last & old & B1 & _ & _ & B4 & B5). exists net, last, old. split; [assumption|]. split; [assumption|]. rewrite filter_id in B5; [assumption|].
  eapply Forall_impl; [|exact Hne]. intros [|z r] Hr; [congruence|reflexivity].
Qed.

Theorem C47_order cfg : Forall (fun r => r <> []) cfg ->
  exists net last order, init_network_and_conditions cfg = Ok (net, last) /\ network_to_config net = Ok (map (fun k => nth k cfg []) order) /\
    Permutation order (seq 0 (length cfg)) /\ StronglySorted (fun i j => String.leb (str_nat (i + 1)) (str_nat (j + 1)) = true) order.
Proof.
  intros Hne. destruct (round_trip cfg) as (net & last & cfg' & is_ & E1 & E2 & E3 & Hp & Hs & ->). exists net, last, is_. split; [assumption|]. split; [assumption|]. split; [|assumption]. rewrite filter_id in Hp; [assumption|].
  apply Forall_forall. intros k Hk. apply in_seq in Hk. rewrite Forall_forall in Hne. specialize (Hne (nth k cfg [])). destruct (nth k cfg []) eqn:E; [exfalso; apply Hne; [rewrite <- E; apply nth_In; lia|reflexivity]|reflexivity].
Qed.

Lemma sorted_le_unique (l l' : list nat) : StronglySorted le l -> StronglySorted le l' -> Permutation l l' -> l = l'.
Proof.
  intros Hs. revert l'. induction Hs as [|x l Hs IH Hx]; intros l' Hs' Hp; [apply Permutation_nil in Hp; congruence|]. destruct Hs' as [|y l' Hs' Hy]; [apply Permutation_sym, Permutation_nil in Hp; discriminate|].
  rewrite Forall_forall in Hx, Hy. assert (x = y).
  { assert (In x (y :: l')) as [->|Hin] by (eapply Permutation_in; [exact Hp|left; reflexivity]); [reflexivity|]. assert (In y (x :: l)) as [->|Hin'] by (eapply Permutation_in; [symmetry; exact Hp|left; reflexivity]); [reflexivity|]. specialize (Hx _ Hin'). specialize (Hy _ Hin). lia. }
  subst y. f_equal. apply IH; [assumption|]. eapply Permutation_cons_inv; exact Hp.
Qed.
Lemma digits_ordered : forallb (fun i => forallb (fun j => implb (String.leb (str_nat (i + 1)) (str_nat (j + 1))) (Nat.leb i j)) (seq 0 9)) (seq 0 9) = true.
Proof. vm_compute. reflexivity. Qed.
Lemma seq_sorted n : forall k, StronglySorted le (seq k n).
Proof. induction n as [|n IH]; intros k; cbn; constructor; [apply IH|]. apply Forall_forall. intros x Hx. apply in_seq in Hx. lia. Qed.

Theorem C47_exact cfg : Forall (fun r => r <> []) cfg -> (length cfg <= 9)%nat ->
  exists net last, init_network_and_conditions cfg = Ok (net, last) /\ network_to_config net = Ok cfg.
Proof.
  intros Hne Hl. destruct (C47_order cfg Hne) as (net & last & order & E1 & E2 & Hp & Hs). exists net, last. split; [assumption|]. rewrite E2. f_equal. etransitivity; [|apply (map_nth_seq [])]. f_equal.
  apply sorted_le_unique; [|apply seq_sorted|assumption].
  assert (Hlt : forall k, In k order -> (k < 9)%nat) by (intros k Hk; eapply Permutation_in in Hk; [|exact Hp]; apply in_seq in Hk; lia). clear - Hs Hlt.
  induction Hs as [|x l Hs IH Hx]; [constructor|]. constructor; [apply IH; intros k Hk; apply Hlt; right; assumption|]. rewrite Forall_forall in *. intros y Hy. specialize (Hx y Hy).
  pose proof digits_ordered as D. rewrite forallb_forall in D. specialize (D x). rewrite forallb_forall in D. specialize (D ltac:(apply in_seq; specialize (Hlt x (or_introl eq_refl)); lia) y ltac:(apply in_seq; specialize (Hlt y (or_intror Hy)); lia)).
  rewrite Hx in D. cbn in D. apply Nat.leb_le in D. assumption.
Qed.

Definition demo_cfg : config := [[1; 2]; [3]; [2; 2; 5; 1]; [1; 2]; [7; 7]; [4; 4; 4]].
Example C47_nonvacuous : Forall (fun r : relation => r <> []) demo_cfg /\ (length demo_cfg <= 9)%nat /\
  exists net last, init_network_and_conditions demo_cfg = Ok (net, last) /\ last = 7 /\ network_to_config net = Ok demo_cfg.
Proof. split; [repeat constructor; discriminate|]. split; [cbn; lia|]. eexists. eexists. split; [vm_compute; reflexivity|]. split; vm_compute; reflexivity. Qed.

(** with ten relations the tenth comes second *)
Theorem C47_ten_refuted : exists cfg net last cfg', Forall (fun r => r <> []) cfg /\ length cfg = 10%nat /\ init_network_and_conditions cfg = Ok (net, last) /\ network_to_config net = Ok cfg' /\ cfg' <> cfg.
Proof.
  exists (map (fun k => [k; k + 1]) (zrange 1 11)). eexists. exists 11. eexists. split; [vm_compute; repeat constructor; discriminate|]. split; [reflexivity|]. split; [vm_compute; reflexivity|]. split; [vm_compute; reflexivity|]. vm_compute. discriminate.
Qed.
(** an empty relation leaves no edge and is lost *)
Theorem C47_empty_relation_refuted : exists cfg net last cfg', init_network_and_conditions cfg = Ok (net, last) /\ network_to_config net = Ok cfg' /\ length cfg' <> length cfg.
Proof. exists [[1; 2]; []]. eexists. exists 2. eexists. split; [vm_compute; reflexivity|]. split; [vm_compute; reflexivity|]. vm_compute. discriminate. Qed.

(** ** C48 *)
Section C48.
  Context {S A : Type} `{EqD S}.

  Theorem C48_sound fuel rules_in rules_out m (ctx : topo_ctx Z aval A) m' ret : wolfram_rule fuel rules_in rules_out m ctx = Ok (m', ret) ->
    exists old new groups rest, network_to_config (t_net ctx) = Ok old /\ init_network_and_conditions new = Ok (m_net m', m_last m') /\ ret = Some (m_net m') /\
      rewrites rules_in rules_out groups rest old new /\
      Z.of_nat (length new) = Z.of_nat (length old) + Z.of_nat (length groups) * (Z.of_nat (length rules_out) - Z.of_nat (length rules_in)).
  Proof.
    unfold wolfram_rule. intros E. destruct (network_to_config (t_net ctx)) as [old|] eqn:E1; [|discriminate]. cbn [rbind] in E. destruct (rewrite_config fuel rules_in rules_out (m_last m) old) as [new|] eqn:E2; [|discriminate]. cbn [rbind] in E.
    destruct (init_network_and_conditions new) as [[n last]|] eqn:E3; [|discriminate]. cbn [rbind] in E. injection E as <- <-. destruct (rewrite_sound _ _ _ _ _ _ E2) as (groups & rest & Hr & _). exists old, new, groups, rest.
    split; [reflexivity|]. split; [assumption|]. split; [reflexivity|]. split; [assumption|]. destruct (rewritten_length _ _ _ _ _ _ Hr) as [L1 L2]. nia.
  Qed.

  (** with one pattern on the left nothing that matches is left over *)
  Theorem C48_single_pattern_exhaustive fuel p rules_out m (ctx : topo_ctx Z aval A) m' ret : wolfram_rule fuel [p] rules_out m ctx = Ok (m', ret) ->
    exists old new groups rest, network_to_config (t_net ctx) = Ok old /\ init_network_and_conditions new = Ok (m_net m', m_last m') /\ rewrites [p] rules_out groups rest old new /\
      forall r b, In r rest -> ~ instance b p r.
  Proof.
    unfold wolfram_rule. intros E. destruct (network_to_config (t_net ctx)) as [old|] eqn:E1; [|discriminate]. cbn [rbind] in E. destruct (rewrite_config fuel [p] rules_out (m_last m) old) as [new|] eqn:E2; [|discriminate]. cbn [rbind] in E.
    destruct (init_network_and_conditions new) as [[n last]|] eqn:E3; [|discriminate]. cbn [rbind] in E. injection E as <- <-. destruct (rewrite_sound _ _ _ _ _ _ E2) as (groups & rest & Hr & _ & _ & Hs). exists old, new, groups, rest. auto.
  Qed.

  (** [_matches]: a relation matches exactly when some extension of the bindings makes it an instance; it then binds no more than
      that, and on failure the bindings are what they were *)
  Theorem C48_matches (pattern : list S) rel (b : dict S Z) :
    match matches pattern rel b with
    | (true, b') => (forall s n, dget b s = Some n -> dget b' s = Some n) /\ instance (dget b') pattern rel /\ (forall s, dget b' s <> None <-> dget b s <> None \/ In s pattern)
    | (false, b') => (forall s, dget b' s = dget b s) /\ (forall f, (forall s n, dget b s = Some n -> f s = Some n) -> ~ instance f pattern rel)
    end.
  Proof. exact (matches_spec pattern rel b). Qed.
End C48.

Definition ctx_of (net : wnet) : topo_ctx Z aval Z := mkTopo net [] 1.
(** {{x,y},{x,z}} -> {{x,z},{x,w},{y,w},{z,w}} *)
Definition rule1_in : list (list string) := [["x"; "y"]; ["x"; "z"]].
Definition rule1_out : list (list string) := [["x"; "z"]; ["x"; "w"]; ["y"; "w"]; ["z"; "w"]].
Definition after (cfg : config) (rin rout : list (list string)) : res config :=
  m <- model_init cfg ;; ' (m', _) <- wolfram_rule 50 rin rout m (ctx_of (m_net m)) ;; network_to_config (m_net m').
Example C48_nonvacuous : after [[1; 2]; [3; 4]; [1; 3]; [5]; [3; 3]] rule1_in rule1_out = Ok [[5]; [1; 3]; [1; 6]; [2; 6]; [3; 6]; [3; 3]; [3; 7]; [4; 7]; [3; 7]].
Proof. vm_compute. reflexivity. Qed.
Example C48_single_nonvacuous : after [[1; 2]; [3; 3]; [4; 5; 4]; [1]] [["x"; "y"]] [["y"; "z"]] = Ok [[4; 5; 4]; [1]; [2; 6]; [3; 7]].
Proof. vm_compute. reflexivity. Qed.

(** the first pattern takes a relation that the second cannot continue: the match that exists is not found *)
Theorem C48_exhaustive_refuted : exists (rin rout : list (list string)) old new b lhs rest,
  rewrite_config 50 rin rout 5 old = Ok new /\ Permutation new old /\ Permutation old (lhs ++ rest) /\ Forall2 (instance b) rin lhs.
Proof.
  exists [["x"; "y"]; ["y"; "z"]], [["x"; "z"]], [[1; 2]; [3; 4]; [4; 5]]. eexists. exists (dget [("x", 3); ("y", 4); ("z", 5)]), [[3; 4]; [4; 5]], [[1; 2]].
  split; [vm_compute; reflexivity|]. split; [apply (Permutation_app_comm [[3; 4]; [4; 5]] [[1; 2]])|]. split; [apply (Permutation_app_comm [[1; 2]] [[3; 4]; [4; 5]])|]. repeat constructor.
Qed.

(** ** C49 *)
Section C49.
  Context {S : Type} `{EqD S} (rules_in rules_out : list (list S)).

  (** one step, given that [last_node] bounds the nodes of the configuration *)
  Theorem C49_step {A} fuel m (ctx : topo_ctx Z aval A) m' ret : wolfram_rule fuel rules_in rules_out m ctx = Ok (m', ret) ->
    exists old new groups rest, network_to_config (t_net ctx) = Ok old /\ init_network_and_conditions new = Ok (m_net m', m_last m') /\ rewrites rules_in rules_out groups rest old new /\
      (Forall (fun n => n <= m_last m) (concat old) -> fresh groups old).
  Proof.
    unfold wolfram_rule. intros E. destruct (network_to_config (t_net ctx)) as [old|] eqn:E1; [|discriminate]. cbn [rbind] in E. destruct (rewrite_config fuel rules_in rules_out (m_last m) old) as [new|] eqn:E2; [|discriminate]. cbn [rbind] in E.
    destruct (init_network_and_conditions new) as [[n last]|] eqn:E3; [|discriminate]. cbn [rbind] in E. injection E as <- <-. destruct (rewrite_sound _ _ _ _ _ _ E2) as (groups & rest & Hr & Hfr & Hinj & _). exists old, new, groups, rest. split; [reflexivity|]. split; [assumption|]. split; [assumption|].
    intros Hb. split; [|exact Hinj]. intros g s k Hg Hc Hk. rewrite Forall_forall in Hb. specialize (Hb k Hk). specialize (Hfr g s k Hg Hc). lia.
  Qed.

  (** whole runs: the run never fails, starts with the configuration, every configuration rewrites the one before, and a node
      created in a step occurs in none of the configurations up to then and is created for one symbol of one group only *)
  Theorem C49_run {A BA BN I : Type} `{EqD A} (W : env Z aval A BA BN) cfg T :
    rules_in <> [] -> rules_out <> [] -> Forall (fun p => p <> []) rules_out -> cfg <> [] -> Forall (fun r => r <> []) cfg -> 1 <= T ->
    exists m, model_init cfg = Ok m /\ forall fuel (g : args (I := I)) f, (length cfg * (length rules_out + 1) ^ Z.to_nat T < fuel)%nat ->
      g_rule g = None -> g_topo g = Some (wolfram_rule fuel rules_in rules_out) -> g_past g = [] -> g_comp g = false -> g_pnet g = true -> T <= Z.of_nat f ->
      exists uf traj configs, evolve W f m (m_net m) None (Some T) None g = Ok (uf, traj) /\
        Forall2 (fun st c => exists net, state_network W st = Ok (Some net) /\ network_to_config net = Ok c) traj configs /\
        Z.of_nat (length configs) = T /\ history rules_in rules_out configs /\ (forall c0, nth_error configs 0 = Some c0 -> Permutation c0 cfg).
  Proof.
    intros H1 H2 H3 H4 H5 HT. destruct (wolfram_run (I := I) rules_in rules_out H1 H2 H3 W cfg T) as (m & Em & Hr); [|assumption|assumption|].
    - eapply Forall_impl; [|exact H5]. intros [|z r] Hr; [congruence|reflexivity].
    - exists m. split; [assumption|]. intros fuel g f Hf G1 G2 G3 G4 G5 Hf2. apply (Hr fuel g f Hf); [|assumption]. unfold wolfram_args. auto.
  Qed.
End C49.

Definition WW : env Z aval Z unit unit := mkEnv Z.of_nat (fun z => Some z) AInt (fun _ => Ok tt) (fun _ => Ok []) (fun _ => Ok tt) (fun _ => Ok empty_network).
Definition wargs (rin rout : list (list string)) : args (L := Z) (V := aval) (A := Z) (U := model) (I := unit) :=
  mkArgs None (Some (wolfram_rule 100 rin rout)) None [] ACTIVITIES_FIRST true false true true false None.
Definition wrun (cfg : config) rin rout T : res (list config) :=
  m <- model_init cfg ;; ' (_, traj) <- evolve WW 50 m (m_net m) None (Some T) None (wargs rin rout) ;;
  rmap (fun st => o <- state_network WW st ;; n <- of_opt TypeError o ;; network_to_config n) traj.
Example C49_nonvacuous : wrun [[1; 2]; [1; 3]] rule1_in rule1_out 3 =
  Ok [[[1; 2]; [1; 3]]; [[1; 3]; [1; 4]; [2; 4]; [3; 4]]; [[3; 4]; [2; 4]; [1; 4]; [1; 5]; [3; 5]; [4; 5]]].
Proof. vm_compute. reflexivity. Qed.
Definition demo_cfg2 : config := [[1; 2]; [1; 3]].
Example C49_run_nonvacuous : (length demo_cfg2 * (length rule1_out + 1) ^ Z.to_nat 2 < 100)%nat /\ rule1_in <> [] /\ rule1_out <> [] /\ Forall (fun p : list string => p <> []) rule1_out.
Proof. split; [vm_compute; lia|]. split; [discriminate|]. split; [discriminate|]. repeat constructor; discriminate. Qed.

(** when every relation is rewritten to nothing the network is empty, and evolve rejects it *)
Example C49_emptied : wrun [[1; 2]] [["x"; "y"]] [] 2 = Err (Raise "topology rule must return a network").
Proof. vm_compute. reflexivity. Qed.

(** [last_node] has to bound the nodes: with a network other than the model's own the "new" node 1 is not new *)
Theorem C49_foreign_network_refuted : exists cfg cfg' s,
  (m <- model_init cfg ;; m' <- model_init cfg' ;; ' (m2, _) <- wolfram_rule 50 [["x"]] [["x"; s]] m (ctx_of (m_net m')) ;; network_to_config (m_net m2)) = Ok [[1; 1]] /\ cfg' = [[1]] /\ s <> "x".
Proof. exists [[0]], [[1]], "y". split; [vm_compute; reflexivity|]. split; [reflexivity|discriminate]. Qed.

(** ** C50 *)
Section C50.
  Context {S A : Type} `{EqD S}.

  Theorem C50_terminates rules_in rules_out m (ctx : topo_ctx Z aval A) old : rules_in <> [] -> network_to_config (t_net ctx) = Ok old ->
    exists m', forall fuel, (length old < fuel)%nat -> wolfram_rule (S := S) fuel rules_in rules_out m ctx = Ok (m', Some (m_net m')).
  Proof.
    intros Hne E. unfold wolfram_rule. rewrite E. cbn [rbind]. unfold rewrite_config. destruct (scan_loop_terminates rules_in Hne (Datatypes.S (length old)) old [] [] ltac:(lia)) as [[[r u] ms] Es].
    set (new := snd (fold_left (emit_group rules_out) ms (m_last m, r ++ u))). destruct (init_R new) as (net & g & Ei & _). exists (mkModel net (fold_left Z.max (concat new) 0)). intros fuel Hf.
    rewrite (scan_loop_mono _ _ _ _ _ _ Es fuel) by lia. cbn [rbind]. fold new. rewrite Ei. reflexivity.
  Qed.

  Theorem C50_empty_lhs_diverges rules_out m (ctx : topo_ctx Z aval A) old : network_to_config (t_net ctx) = Ok old ->
    forall fuel, wolfram_rule (S := S) fuel [] rules_out m ctx = Err OutOfFuel.
  Proof. intros E fuel. unfold wolfram_rule. rewrite E. cbn [rbind]. unfold rewrite_config. rewrite scan_loop_diverges. reflexivity. Qed.
End C50.
Example C50_nonvacuous : exists old, (m <- model_init demo_cfg ;; network_to_config (m_net m)) = Ok old /\ length old = 6%nat /\ after demo_cfg [["x"; "y"]; ["y"; "y"; "z"; "x"]] [["x"; "x"]] = Ok [[3]; [7; 7]; [4; 4; 4]; [1; 2]; [1; 1]].
Proof. eexists. split; [vm_compute; reflexivity|]. split; [reflexivity|]. vm_compute. reflexivity. Qed.

Print Assumptions C47_round_trip. Print Assumptions C47_order. Print Assumptions C47_exact. Print Assumptions C47_ten_refuted. Print Assumptions C47_empty_relation_refuted.
Print Assumptions C48_sound. Print Assumptions C48_single_pattern_exhaustive. Print Assumptions C48_matches. Print Assumptions C48_exhaustive_refuted.
Print Assumptions C49_step. Print Assumptions C49_run. Print Assumptions C49_foreign_network_refuted. Print Assumptions C50_terminates. Print Assumptions C50_empty_lhs_diverges.
