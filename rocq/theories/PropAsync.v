(** * C35 - C37: the asynchronous and the reversible rule *)
From Verif Require Import Py PyFacts Network Evolve EvolveSpec EvolveProofs EvolveStatic Async AsyncProofs ReversibleProofs PropEvolve.
Open Scope string_scope.
Open Scope list_scope.
Open Scope Z_scope.

Section Theorems.
  Context {L V A U I BA BN : Type} `{EqD L} `{EqD A}.
  Notation network := (network L V).
  Notation acts := (dict L A).
  Notation args := (@args L V A (U * async L) I).

  (** a run of [AsynchronousRule r] without a topology rule or perturbation; [r] neither adds nor removes nodes *)
  Definition async_setup (shuffle : nat -> nat -> list L) rand (r : @rule L V A U I) (n : network) (inp : option (@input L V A (U * async L) I)) (g : args) : Prop :=
    g_rule g = Some (async_call shuffle rand r) /\ g_topo g = None /\ g_pert g = None /\ g_memo g = false /\ g_comp g = false /\ g_pact g = true /\
    keeps_nodes r /\ input_keeps inp /\ NoDup (nodes n).

  (** [hs] are the activities with the wrapped rule's own state; [who k] is the node updated in the step from k to k + 1.
      Every other node keeps its activity, and the wrapped rule is called once, on that node. *)
  Definition one_node_per_step W (r : @rule L V A U I) (n : network) (u0 : U) initial (traj : list (state L V A BA BN)) (who : nat -> L -> Prop) : Prop :=
    exists hs : list (U * acts), nth_error hs 0 = Some (u0, start W initial) /\
      Forall2 (fun s S => activities W s = Ok (shown_acts (snd S))) traj hs /\
      forall k u S u' S', nth_error hs k = Some (u, S) -> nth_error hs (Datatypes.S k) = Some (u', S') ->
        exists c, who k c /\ map fst S' = nodes n /\
          (forall w, In w (nodes n) -> w <> c -> dget S' w = dget S w) /\
          exists past i (x : node_ctx L V A I) o, ctx_for W n S (Z.of_nat k + 1) past i c x /\ r u x = Ok (u', o) /\ dget S' c = Some (o_act o).

  (** C35: a fixed order; time t is k + 1 *)
  Theorem C35_one_node_per_step : forall W shuffle r fuel u0 order n initial ts inp g uf traj a,
    async_setup shuffle false r n inp g -> async_init shuffle (Some order) None = Ok a ->
    NoDup order -> incl order (nodes n) -> order <> [] ->
    evolve W fuel (u0, a) n initial ts inp g = Ok (uf, traj) ->
    one_node_per_step W r n u0 initial traj (fun k c => nth_error order (k mod length order) = Some c).
  Proof.
    intros W shuffle r fuel u0 order n initial ts inp g uf traj a (H1 & H2 & H3 & H4 & H5 & H6 & H7 & H8 & H9) Ei Hnd Hincl Hne E.
    cbn in Ei. injection Ei as <-.
    assert (Hl : length order <> 0%nat) by (destruct order; [congruence|discriminate]).
    destruct (async_run W shuffle false r fuel u0 (mkAsync order 0 0 0) n initial ts inp g uf traj H1 H2 H3 H4 H5 H6 H7 H8 H9) as (hs & Hz & Hf & Hs); [|exact E|].
    - intros k. rewrite (async_at_fixed shuffle order 0 0 Hne) by lia. cbn. repeat split; auto. apply Nat.mod_upper_bound. assumption.
    - exists hs. split; [exact Hz|]. split; [assumption|]. intros k u S u' S' Ek Ek'. destruct (Hs k u S u' S' Ek Ek') as (past & i & c & Hc & Hk & Hw & x & o & Hx & Hr & Hg).
      rewrite (async_at_fixed shuffle order 0 0 Hne) in Hc by lia. cbn in Hc. exists c. split; [exact Hc|]. split; [assumption|]. split; [assumption|]. eauto 8.
  Qed.

  (** over any len(update_order) consecutive steps every listed node has its turn exactly once *)
  Theorem C35_each_node_once : forall (order : list L) v k0, NoDup order -> In v order ->
    exists j, ((k0 <= j < k0 + length order)%nat /\ nth_error order (j mod length order) = Some v) /\
      forall j', (k0 <= j' < k0 + length order)%nat -> nth_error order (j' mod length order) = Some v -> j' = j.
  Proof.
    intros order v k0 Hnd Hv. apply In_nth_error in Hv. destruct Hv as [p Ep].
    assert (Hp : (p < length order)%nat) by (apply nth_error_Some; congruence).
    destruct (each_once (length order) k0 p Hp) as (j & [Hj Em] & Hu). exists j. split; [split; [assumption|rewrite Em; assumption]|].
    intros j' Hj' E'. apply Hu; [assumption|]. apply (proj1 (NoDup_nth_error order) Hnd); [apply Nat.mod_upper_bound; lia|congruence].
  Qed.

  (** C36: n labels 0 .. n-1 ([labs] is arange(n) as labels), every outcome of the shuffles; [who] is left open *)
  Theorem C36_randomized_one_node_per_step : forall W shuffle r fuel u0 n initial ts inp g uf traj a,
    async_setup shuffle true r n inp g -> nodes n <> [] ->
    (forall d m, Permutation (shuffle d m) (map (e_lab W) (seq 0 m))) -> Permutation (nodes n) (map (e_lab W) (seq 0 (net_len n))) ->
    async_init shuffle None (Some (net_len n)) = Ok a ->
    evolve W fuel (u0, a) n initial ts inp g = Ok (uf, traj) ->
    one_node_per_step W r n u0 initial traj (fun _ c => In c (nodes n)).
  Proof.
    intros W shuffle r fuel u0 n initial ts inp g uf traj a (H1 & H2 & H3 & H4 & H5 & H6 & H7 & H8 & H9) Hne Hsh Hlab Ei E.
    cbn in Ei. injection Ei as <-.
    assert (El : length (nodes n) = net_len n) by (unfold nodes, dkeys, net_len; apply map_length).
    assert (Hshn : forall d, Permutation (shuffle d (length (nodes n))) (nodes n)) by (intros d; rewrite El, Hsh; symmetry; exact Hlab).
    assert (Hl : length (nodes n) <> 0%nat) by (destruct (nodes n); [congruence|discriminate]).
    assert (Hat : forall k, let b := async_at shuffle true (mkAsync (shuffle 0%nat (net_len n)) 0 0 1) k in
      Permutation (a_order b) (nodes n) /\ a_curr b = (k mod length (nodes n))%nat /\ a_applied b = 0%nat).
    { apply async_at_random; [assumption|assumption|]. rewrite <- El. apply Hshn. }
    destruct (async_run W shuffle true r fuel u0 (mkAsync (shuffle 0%nat (net_len n)) 0 0 1) n initial ts inp g uf traj H1 H2 H3 H4 H5 H6 H7 H8 H9) as (hs & Hz & Hf & Hs); [|exact E|].
    - intros k. destruct (Hat k) as (P1 & P2 & P3). cbn zeta. rewrite P2, P3. split; [eapply Permutation_NoDup; [symmetry; exact P1|assumption]|].
      split; [intros v Hv; eapply Permutation_in; eassumption|]. split; [intros Hx; rewrite Hx in P1; apply Permutation_nil in P1; congruence|].
      split; [rewrite (Permutation_length P1); apply Nat.mod_upper_bound; assumption|]. split; [reflexivity|]. right. assumption.
    - exists hs. split; [exact Hz|]. split; [assumption|]. intros k u S u' S' Ek Ek'. destruct (Hs k u S u' S' Ek Ek') as (past & i & c & Hc & Hk & Hw & x & o & Hx & Hr & Hg).
      exists c. split; [destruct (Hat k) as (P1 & _); eapply Permutation_in; [exact P1|]; eapply nth_error_In; exact Hc|]. split; [assumption|]. split; [assumption|]. eauto 8.
  Qed.

  (** a custom order is replaced, at the end of the first cycle, by a permutation of 0 .. len-1 *)
  Theorem C36_custom_order_replaced : forall (lab : nat -> L) shuffle (r : @rule L V A U I) order u c d x u' a' o,
    (forall d m, Permutation (shuffle d m) (map lab (seq 0 m))) ->
    In (x_label x) order -> async_call shuffle true r (u, mkAsync order c (length order - 1) d) x = Ok (u', a', o) ->
    Permutation (a_order a') (map lab (seq 0 (length order))) /\ a_applied a' = 0%nat.
  Proof.
    intros lab shuffle r order u c d x u' a' o Hsh Hin E. unfold async_call in E. cbn [a_order a_curr a_applied a_draws] in E.
    destruct (in_dec eqd (x_label x) order); [|contradiction]. cbn [a_order a_curr a_applied a_draws] in E.
    inv_bind E cc Ec. unfold check_for_end_of_cycle in E. cbn [a_order a_curr a_applied a_draws] in E.
    assert (Hl : (0 < length order)%nat) by (destruct order; [destruct Hin|cbn; lia]).
    replace (S (length order - 1)) with (length order) in E by lia. rewrite Nat.eqb_refl in E.
    destruct (eqd (x_label x) cc).
    - inv_bind E uo Er. destruct uo as [u1 o1]. injection E as _ <- _. cbn. auto.
    - injection E as _ <- _. cbn. auto.
  Qed.

  Theorem C35_needs_order_or_n : forall shuffle : nat -> nat -> list L, exists m, async_init shuffle None None = Err (Raise m).
  Proof. intros. eexists. reflexivity. Qed.
End Theorems.

(** C37. [hs] are the states S(0), ..., S(T-1) of the forward run (time starts at 0), preceded by the past condition; the run from
    S(T-2) with past condition S(T-1) goes through S(T-2), S(T-3), ..., S(0) and ends at the past condition. *)
Theorem C37_reversible : forall (L V U I BA BN : Type) (HL : EqD L) (W : env L V Z BA BN) (f : node_ctx L V Z I -> res Z) fuel (u0 : U) n c pc T g uf traj,
  static g (stateless (reversible_call f)) -> timeless f -> g_past g = [pc] -> NoDup (nodes n) -> closed n ->
  same_keys n (to_dict W pc) -> same_keys n (to_dict W c) -> 2 <= T ->
  evolve W fuel u0 n (Some c) (Some T) None g = Ok (uf, traj) ->
  exists hs, Z.of_nat (length hs) = T /\ Forall2 (fun s S => activities W s = Ok (shown_acts S)) traj hs /\ nth_error hs 0 = Some (to_dict W c) /\
    forall Slast Sprev fuel' (u1 : U) g', nth_error hs (Z.to_nat T - 1) = Some Slast -> nth_error hs (Z.to_nat T - 2) = Some Sprev ->
      static g' (stateless (reversible_call f)) -> g_past g' = [CDict Slast] -> (Z.to_nat T <= fuel')%nat ->
      exists uf' traj' hs', evolve W fuel' u1 n (Some (CDict Sprev)) (Some T) None g' = Ok (uf', traj') /\ Z.of_nat (length hs') = T /\
        Forall2 (fun s S => activities W s = Ok (shown_acts S)) traj' hs' /\
        forall j S S0, nth_error hs' j = Some S -> nth_error (to_dict W pc :: hs) (Z.to_nat T - 1 - j) = Some S0 -> forall v, dget S v = dget S0 v.
Proof. intros. eapply reversible_run; eassumption. Qed.

Print Assumptions C35_one_node_per_step.
Print Assumptions C35_each_node_once.
Print Assumptions C35_needs_order_or_n.
Print Assumptions C36_randomized_one_node_per_step.
Print Assumptions C36_custom_order_replaced.
Print Assumptions C37_reversible.

(** ** Examples *)

Definition base_async (r : @rule Z Z Z (Z * async Z) Z) : @args Z Z Z (Z * async Z) Z := mkArgs (Some r) None None [] ACTIVITIES_FIRST true false true true false None.
Definition shown_async (r : res (Z * async Z * list (state Z Z Z unit unit))) : res (list (option (list Z))) :=
  ' (_, tr) <- r ;; rmap (fun s => a <- activities W0 s ;; Ok (option_map (fun S => map (fun v => match dget S v with Some x => x | None => -1 end) [0; 1; 2; 3; 4]) a)) tr.

(** adds the number of calls made so far to the node's activity *)
Definition bump : @rule Z Z Z Z Z := fun u x => Ok (u + 1, mkOut (x_cur x + u + 1) [] []).
Lemma bump_keeps : keeps_nodes bump.
Proof. intros u x u' o E. injection E as _ <-. auto. Qed.

Definition no_shuffle (d m : nat) : list Z := [].

Example C35_nonvacuous : exists uf traj,
  async_setup (V:=Z) no_shuffle false bump ring5 None (base_async (async_call no_shuffle false bump)) /\ incl [3; 0; 2] (nodes ring5) /\
  evolve W0 9 (0, mkAsync [3; 0; 2] 0 0 0) ring5 start5 (Some 6) None (base_async (async_call no_shuffle false bump)) = Ok (uf, traj) /\
  shown_async (Ok (uf, traj)) = Ok [Some [0; 0; 1; 0; 0]; Some [0; 0; 1; 1; 0]; Some [2; 0; 1; 1; 0]; Some [2; 0; 4; 1; 0]; Some [2; 0; 4; 5; 0]; Some [7; 0; 4; 5; 0]].
Proof.
  eexists. eexists. split; [|split; [|split; [vm_compute; reflexivity|vm_compute; reflexivity]]].
  - unfold async_setup. splits; try reflexivity; [apply bump_keeps|nodup].
  - intros v Hv. cbn in Hv. cbn. tauto.
Qed.

(** the shuffles rotate arange(n) by the draw number *)
Definition rotate (d m : nat) : list Z := map (fun i => Z.of_nat ((i + 2 * d) mod m)) (seq 0 m).

Example C36_nonvacuous : exists uf traj a,
  async_setup (V:=Z) rotate true bump ring5 None (base_async (async_call rotate true bump)) /\
  async_init rotate None (Some (net_len ring5)) = Ok a /\
  (forall d, (d < 5)%nat -> Permutation (rotate d (net_len ring5)) (map (e_lab W0) (seq 0 (net_len ring5)))) /\
  evolve W0 9 (0, a) ring5 start5 (Some 5) None (base_async (async_call rotate true bump)) = Ok (uf, traj) /\
  shown_async (Ok (uf, traj)) = Ok [Some [0; 0; 1; 0; 0]; Some [1; 0; 1; 0; 0]; Some [1; 0; 1; 2; 0]; Some [1; 3; 1; 2; 0]; Some [1; 3; 1; 2; 4]].
Proof.
  eexists. eexists. eexists. split; [|split; [reflexivity|split; [|split; [vm_compute; reflexivity|vm_compute; reflexivity]]]].
  - unfold async_setup. splits; try reflexivity; [apply bump_keeps|nodup].
  - intros d Hd. apply NoDup_Permutation.
    + do 5 (destruct d as [|d]; [vm_compute; nodup|]). lia.
    + vm_compute. nodup.
    + intros x. do 5 (destruct d as [|d]; [cbn; tauto|]). lia.
Qed.

(** a shuffle of every length, for the example: sorted order; the hypothesis on the shuffles can be met for all draws *)
Example C36_shuffles_exist : forall d m, Permutation ((fun (_ m : nat) => map (e_lab W0) (seq 0 m)) d m) (map (e_lab W0) (seq 0 m)).
Proof. reflexivity. Qed.

(** an order [3; 4] is given, but node 0, which is not listed, is updated in the second timestep: the wrapped rule's node is not always one of
    the nodes of update_order when randomize_each_cycle is set *)
Theorem C36_custom_order_kept_refuted : exists shuffle traj uf,
  (forall d m, Permutation (shuffle d m) (map (e_lab W0) (seq 0 m))) /\
  evolve W0 9 (0, mkAsync [3; 4] 0 0 0) ring5 start5 (Some 4) None (base_async (async_call shuffle true bump)) = Ok (uf, traj) /\
  exists S S', nth_error (match shown_async (Ok (uf, traj)) with Ok l => l | Err _ => [] end) 2 = Some (Some S) /\
    nth_error (match shown_async (Ok (uf, traj)) with Ok l => l | Err _ => [] end) 3 = Some (Some S') /\ nth_error S 0 <> nth_error S' 0.
Proof.
  exists (fun _ m => map (e_lab W0) (seq 0 m)). eexists. eexists. split; [reflexivity|]. split; [vm_compute; reflexivity|].
  eexists. eexists. split; [vm_compute; reflexivity|]. split; [vm_compute; reflexivity|]. discriminate.
Qed.

(** C37: xor of the neighbourhood on a ring, reversible *)
Definition xorsum_h (x : ctx0) : res Z := Ok (fold_left Z.lxor (x_nacts x) 0 + x_cur x).
Lemma xorsum_timeless : timeless xorsum_h.
Proof. intros x y _ _ Ea _ Ec _. unfold xorsum_h. rewrite Ea, Ec. reflexivity. Qed.
Definition g_rev p := base (Some (stateless (reversible_call xorsum_h))) None None [p] ACTIVITIES_FIRST true.

Lemma ring5_closed : closed ring5.
Proof. intros v Hv. cbn in Hv. intuition subst; (eexists; eexists; split; [vm_compute; reflexivity|]; split; [vm_compute; eexists; split; reflexivity|]; intros w Hw; cbn in *; tauto). Qed.

Example C37_nonvacuous : exists uf traj,
  static (g_rev (CList [1; 1; 0; 2; 0])) (stateless (reversible_call xorsum_h)) /\ timeless xorsum_h /\ NoDup (nodes ring5) /\ closed ring5 /\
  same_keys ring5 (to_dict W0 (CList [1; 1; 0; 2; 0])) /\ same_keys ring5 (to_dict W0 (CList [0; 0; 1; 0; 3])) /\
  evolve W0 9 0 ring5 (Some (CList [0; 0; 1; 0; 3])) (Some 4) None (g_rev (CList [1; 1; 0; 2; 0])) = Ok (uf, traj).
Proof.
  eexists. eexists. split; [unfold static; splits; reflexivity|]. split; [apply xorsum_timeless|]. split; [nodup|]. split; [apply ring5_closed|].
  split; [intros v; cbn; tauto|]. split; [intros v; cbn; tauto|]. vm_compute; reflexivity.
Qed.
