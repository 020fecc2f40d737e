(** Runs of evolve with a CTRBL rule, cell by cell: as long as all keys are in the table, and the exception when one is not. *)
From Verif Require Import Py PyFacts ListFacts Network Topology TopologySpec TopologyProofs Evolve EvolveSpec EvolveProofs EvolveProofs2 EvolveStatic CaRun.
From Verif Require Import Ctrbl CtrblSpec CtrblProofs.
Open Scope string_scope.
Open Scope list_scope.
Open Scope Z_scope.

Definition torus_key {A} (rows cols : Z) (G : Z -> Z -> A) (a b : Z) : list A := [G a b; G ((a - 1) mod rows) b; G a ((b + 1) mod cols); G ((a + 1) mod rows) b; G a ((b - 1) mod cols)].
Definition shows_grid {A} (rows cols : Z) (S : dict Z A) (G : Z -> Z -> A) : Prop := forall a b, 0 <= a < rows -> 0 <= b < cols -> dget S (a * cols + b) = Some (G a b).
Notation missing := (Raise "neighbourhood state not in rule table").

Lemma cell_same cols a b a' b' : 0 <= b < cols -> 0 <= b' < cols -> a * cols + b = a' * cols + b' -> a = a' /\ b = b'.
Proof. intros Hb Hb' E. assert (a = a') by (rewrite (Z.div_unique (a * cols + b) cols a b) by lia; symmetry; apply Z.div_unique with b'; lia). subst. lia. Qed.

Section Run.
  Context {A U I BA BN : Type} `{EqD A}.
  Context (W : env Z Z A BA BN) (rows cols : Z) (tb : dict (list A) A) (rot : bool) (obj : ctrbl A).
  Hypothesis Hr : 0 < rows.
  Hypothesis Hc : 0 < cols.
  Hypothesis Hn : 9 <= rows * cols.
  Hypothesis Einit : ctrbl_init rows cols tb rot = Ok obj.
  Notation acts := (dict Z A).
  Notation ctx := (node_ctx Z Z A I).
  Notation args := (@args Z Z A U I).
  Notation tick := (InStr "__timestep__").
  Notation net := (cr_network obj).

  Lemma net_facts : NoDup (nodes net) /\ (forall v, In v (nodes net) <-> 0 <= v < rows * cols) /\ (forall a b, 0 <= a < rows -> 0 <= b < cols -> nbrs_of net (a * cols + b) (ctrbl_cells rows cols a b)) /\
    closed net /\ Z.of_nat (net_len net) = rows * cols.
  Proof.
    destruct (ctrbl_network rows cols tb rot Hr Hc Hn) as (n & Hnd & Hnodes & Hnb & Ei). rewrite Einit in Ei. symmetry in Ei. inv_bind Ei t' Et'. injection Ei as Ei. rewrite <- Ei. cbn [cr_network].
    split; [assumption|]. split; [assumption|]. split; [intros a b Ha Hb; apply Hnb; assumption|]. split.
    - intros v Hv. apply Hnodes in Hv. destruct (cell_surj rows cols v Hc Hv) as (Ev & Ha & Hb). destruct (Hnb _ _ Ha Hb) as (N & inc & E & _).
      change (v = v / cols * cols + v mod cols) in Ev. rewrite <- Ev in N, E. exists inc, (ctrbl_cells rows cols (v / cols) (v mod cols)). split; [assumption|]. split; [assumption|].
      intros u Hu. apply Hnodes. apply (cells_range rows cols _ _ u Hr Hc Ha Hb Hu).
    - unfold net_len. rewrite <- (map_length fst). change (map fst (net_nodes n)) with (nodes n).
      assert (Hp : Permutation (nodes n) (zrange 0 (rows * cols))) by (apply NoDup_Permutation; [assumption|apply NoDup_zrange|]; intros v; rewrite Hnodes, in_zrange; tauto).
      rewrite (Permutation_length Hp), length_zrange. lia.
  Qed.

  Lemma key_of (S : acts) G t past inp a b (x : ctx) : shows_grid rows cols S G -> 0 <= a < rows -> 0 <= b < cols -> ctx_for W net S t past inp (a * cols + b) x -> x_nacts x = torus_key rows cols G a b.
  Proof.
    intros HS Ha Hb Hx. destruct net_facts as (_ & _ & Hnb & _). pose proof (cf_nacts _ _ _ _ _ _ _ _ Hx) as F. rewrite (nbrs_fun net _ _ _ (cf_nbrs _ _ _ _ _ _ _ _ Hx) (Hnb a b Ha Hb)) in F.
    pose proof (Z.mod_pos_bound (a - 1) rows Hr). pose proof (Z.mod_pos_bound (a + 1) rows Hr). pose proof (Z.mod_pos_bound (b - 1) cols Hc). pose proof (Z.mod_pos_bound (b + 1) cols Hc).
    unfold ctrbl_cells in F. inversion F as [|? c1 ? l1 G1 F1]; subst. inversion F1 as [|? c2 ? l2 G2 F2]; subst. inversion F2 as [|? c3 ? l3 G3 F3]; subst. inversion F3 as [|? c4 ? l4 G4 F4]; subst. inversion F4 as [|? c5 ? l5 G5 F5]; subst. inversion F5; subst.
    rewrite HS in G1, G2, G3, G4, G5 by lia. unfold torus_key. congruence.
  Qed.
  Lemma rule_ok (S : acts) G t past inp a b (x : ctx) s : shows_grid rows cols S G -> 0 <= a < rows -> 0 <= b < cols -> ctx_for W net S t past inp (a * cols + b) x -> dget (cr_table obj) (torus_key rows cols G a b) = Some s -> ctrbl_rule obj x = Ok s.
  Proof. intros HS Ha Hb Hx E. unfold ctrbl_rule. rewrite (key_of S G t past inp a b x HS Ha Hb Hx), E. reflexivity. Qed.
  Lemma rule_err (S : acts) G t past inp a b (x : ctx) : shows_grid rows cols S G -> 0 <= a < rows -> 0 <= b < cols -> ctx_for W net S t past inp (a * cols + b) x -> dget (cr_table obj) (torus_key rows cols G a b) = None -> ctrbl_rule obj x = Err missing.
  Proof. intros HS Ha Hb Hx E. unfold ctrbl_rule. rewrite (key_of S G t past inp a b x HS Ha Hb Hx), E. reflexivity. Qed.

  Lemma grid_covers (S : acts) G : shows_grid rows cols S G -> covers net S.
  Proof.
    intros HS v Hv. destruct net_facts as (_ & Hnodes & _). apply Hnodes in Hv. destruct (cell_surj rows cols v Hc Hv) as (Ev & Ha & Hb). unfold cell in Ev. rewrite Ev. eexists. apply HS; assumption.
  Qed.
  Lemma node_cell v : In v (nodes net) -> exists a b, v = a * cols + b /\ 0 <= a < rows /\ 0 <= b < cols.
  Proof. intros Hv. destruct net_facts as (_ & Hnodes & _). apply Hnodes in Hv. destruct (cell_surj rows cols v Hc Hv) as (Ev & Ha & Hb). unfold cell in Ev. eauto. Qed.
  Lemma cell_node a b : 0 <= a < rows -> 0 <= b < cols -> In (a * cols + b) (nodes net).
  Proof. intros Ha Hb. destruct net_facts as (_ & Hnodes & _). apply Hnodes. apply (cell_bound rows cols a b Ha Hb). Qed.

  Definition steps (G : nat -> Z -> Z -> A) (t : nat) : Prop := forall a b, 0 <= a < rows -> 0 <= b < cols -> dget (cr_table obj) (torus_key rows cols (G t) a b) = Some (G (Datatypes.S t) a b).

  Theorem ctrbl_run fuel (u0 : U) c T (g : args) (G : nat -> Z -> Z -> A) : static g (stateless (ctrbl_rule obj)) -> 1 <= T -> (Z.to_nat T <= fuel)%nat -> Z.of_nat (length (to_dict W c)) = rows * cols ->
    shows_grid rows cols (to_dict W c) (G 0%nat) -> (forall t, Z.of_nat t + 1 < T -> steps G t) ->
    exists uf traj hs, evolve W fuel u0 net (Some c) (Some T) None g = Ok (uf, traj) /\ Z.of_nat (length hs) = T /\
      Forall2 (fun st S => activities W st = Ok (shown_acts S)) traj hs /\ forall k S, nth_error hs k = Some S -> shows_grid rows cols S (G k).
  Proof.
    intros Hst HT Hf Hlen H0 Hsteps. destruct net_facts as (Hnd & Hnodes & Hnb & Hcl & Hnl).
    set (Inv := fun hs : list acts => forall k S, nth_error hs k = Some S -> shows_grid rows cols S (G k)).
    assert (Hlast : forall hist S, Inv (hist ++ [S]) -> shows_grid rows cols S (G (length hist))) by (intros hist S Hi; apply Hi; rewrite nth_error_app2, Nat.sub_diag by lia; reflexivity).
    destruct (stateless_run_upto W fuel u0 net c T g (ctrbl_rule obj) Inv Hst Hnd HT Hf) as (uf & traj & hs & E & Hl & Hsh & Hi & _).
    - lia.
    - assumption.
    - eapply grid_covers. exact H0.
    - intros [|k] S E; [injection E as <-; exact H0|destruct k; discriminate].
    - intros hist S v x Hlt Hi Hv Hx. destruct (node_cell v Hv) as (a & b & -> & Ha & Hb). eexists. eapply rule_ok; [apply Hlast, Hi|exact Ha|exact Hb|exact Hx|]. apply Hsteps; [lia|assumption|assumption].
    - intros hist S S' Hlt Hi Hcov [_ Hu] k S1 E. destruct (lt_dec k (length (hist ++ [S]))); [rewrite nth_error_app1 in E by assumption; apply Hi; assumption|].
      rewrite nth_error_app2 in E by lia. destruct (k - length (hist ++ [S]))%nat as [|m] eqn:Ek; [|destruct m; discriminate]. injection E as <-. rewrite app_length in Ek, n. cbn [length] in Ek, n. assert (k = Datatypes.S (length hist)) by lia. subst k.
      intros a b Ha Hb. destruct (Hu _ (cell_node a b Ha Hb)) as (x & s & s' & Hx & Es & -> & Ed). rewrite Ed. f_equal.
      rewrite (rule_ok S _ _ _ _ a b x _ (Hlast _ _ Hi) Ha Hb Hx (Hsteps (length hist) ltac:(lia) a b Ha Hb)) in Es. congruence.
    - exists uf, traj, hs. split; [assumption|]. split; [assumption|]. split; [assumption|exact Hi].
  Qed.

  Lemma sweep_err (g : args) mk t prev past (tab : list (mk_K mk * A)) (u : U) G : g_memo g = false -> g_pert g = None -> shows_grid rows cols prev G ->
    (exists a b, 0 <= a < rows /\ 0 <= b < cols /\ dget (cr_table obj) (torus_key rows cols G a b) = None) ->
    do_activity_rule W g mk (stateless (ctrbl_rule obj)) t tick u prev tab net past (Some (get_neighbourhood_map net)) = Err missing.
  Proof.
    intros Hm Hp HG (a0 & b0 & Ha0 & Hb0 & E0). unfold do_activity_rule. pose proof (cell_node a0 b0 Ha0 Hb0) as Hin. destruct net_facts as (_ & _ & _ & Hcl & _). pose proof (grid_covers _ _ HG) as Hcov.
    assert (Hg : forall rest s, incl rest (nodes net) -> In (a0 * cols + b0) rest -> rfold (node_step W g mk (stateless (ctrbl_rule obj)) t tick prev net past (Some (get_neighbourhood_map net))) rest s = Err missing).
    { induction rest as [|v rest IH]; intros s Hi Hx0; [destruct Hx0|]. cbn [rfold]. destruct (node_context_total (I := I) W t prev net past v Hcl Hcov) as (x & Ex & Hx); [apply Hi; left; reflexivity|].
      unfold node_step at 1. rewrite Ex. cbn [rbind]. unfold apply_rule. rewrite Hm. unfold stateless at 1. destruct (node_cell v (Hi _ (or_introl eq_refl))) as (a & b & -> & Ha & Hb).
      destruct (dget (cr_table obj) (torus_key rows cols G a b)) as [s1|] eqn:Es.
      - rewrite (rule_ok _ _ _ _ _ _ _ _ _ HG Ha Hb Hx Es). cbn [rbind o_added o_removed o_act existsb]. rewrite Hp. cbn [rbind]. apply IH; [intros w Hw; apply Hi; right; assumption|]. destruct Hx0 as [Eq|Hx0]; [|assumption]. exfalso.
        destruct (cell_same cols a b a0 b0 Hb Hb0 Eq) as [-> ->]. congruence.
      - rewrite (rule_err _ _ _ _ _ _ _ _ HG Ha Hb Hx Es). reflexivity. }
    apply Hg; [apply incl_refl|assumption].
  Qed.

  Theorem ctrbl_fails fuel (u0 : U) c T K (g : args) (G : nat -> Z -> Z -> A) : static g (stateless (ctrbl_rule obj)) -> (Datatypes.S K < Z.to_nat T <= fuel)%nat -> Z.of_nat (length (to_dict W c)) = rows * cols ->
    shows_grid rows cols (to_dict W c) (G 0%nat) -> (forall t, (t < K)%nat -> steps G t) ->
    (exists a b, 0 <= a < rows /\ 0 <= b < cols /\ dget (cr_table obj) (torus_key rows cols (G K) a b) = None) ->
    evolve W fuel u0 net (Some c) (Some T) None g = Err missing.
  Proof.
    intros Hst HK Hlen H0 Hsteps Hbad. destruct net_facts as (Hnd & Hnodes & Hnb & Hcl & Hnl).
    set (Inv := fun (hs : list acts) (_ : U) => forall k S, nth_error hs k = Some S -> shows_grid rows cols S (G k)).
    assert (Hlast : forall hist S u, Inv (hist ++ [S]) u -> shows_grid rows cols S (G (length hist))) by (intros hist S u Hi; apply Hi; rewrite nth_error_app2, Nat.sub_diag by lia; reflexivity).
    pose proof Hst as (_ & _ & Hp & Hm & _ & _).
    apply (static_fail W fuel u0 net c T g (stateless (ctrbl_rule obj)) Inv (Z.of_nat K + 1) missing Hst ltac:(lia) ltac:(lia)).
    - lia.
    - intros [|k] S E; [injection E as <-; exact H0|destruct k; discriminate].
    - intros mk tab hist S u Hi Hlt. set (past := past_of W (g_past g) (hist ++ [S])).
      destruct (sweep_total W g mk (stateless (ctrbl_rule obj)) (Z.of_nat (length hist) + 1) S net past tab u
        (fun done _ curr => forall a b, 0 <= a < rows -> 0 <= b < cols -> In (a * cols + b) done -> dget curr (a * cols + b) = Some (G (Datatypes.S (length hist)) a b)) Hm Hp Hcl (grid_covers _ _ (Hlast _ _ _ Hi))) as (s & Es & Ea & Er & _ & Hvals).
      + intros a b _ _ [].
      + intros done v rest u1 curr x En Hd Hx. destruct (node_cell v) as (a & b & -> & Ha & Hb); [rewrite En; apply in_or_app; right; left; reflexivity|].
        exists u1, (G (Datatypes.S (length hist)) a b). split.
        * unfold stateless. rewrite (rule_ok _ _ _ _ _ _ _ _ _ (Hlast _ _ _ Hi) Ha Hb Hx (Hsteps (length hist) ltac:(lia) a b Ha Hb)). reflexivity.
        * intros a' b' Ha' Hb' Hin. rewrite dget_dset. destruct (eqd (a' * cols + b') (a * cols + b)) as [Eq|Hne]; [destruct (cell_same cols a' b' a b Hb' Hb Eq) as [-> ->]; reflexivity|]. apply in_app_or in Hin. destruct Hin as [Hin|[Hin|[]]]; [auto|congruence].
      + exists s. split; [assumption|]. split; [assumption|]. split; [assumption|]. intros k S1 E. destruct (lt_dec k (length (hist ++ [S]))) as [Hlt'|Hge]; [rewrite nth_error_app1 in E by assumption; apply Hi; assumption|].
        rewrite nth_error_app2 in E by lia. destruct (k - length (hist ++ [S]))%nat as [|m] eqn:Ek; [|destruct m; discriminate]. injection E as <-. rewrite app_length in Ek, Hge. cbn [length] in Ek, Hge. assert (k = Datatypes.S (length hist)) by lia. subst k.
        intros a b Ha Hb. apply Hvals; [assumption|assumption|apply cell_node; assumption].
    - intros mk tab hist S u Hi Hlt. apply (sweep_err g mk _ S _ tab u (G K) Hm Hp); [|exact Hbad]. replace K with (length hist) by lia. eapply Hlast. exact Hi.
  Qed.
End Run.
