(** * C53, C54: the sandpile *)
From Verif Require Import Py PyFacts ListFacts Network Topology Evolve EvolveSpec EvolveProofs EvolveProofs2 EvolveStatic PropEvolve HopfieldProofs HopfieldProofs2 SandpileSpec Sandpile SandpileProofs SandpileProofs2.
Open Scope string_scope.
Open Scope list_scope.
Open Scope Z_scope.

Section Runs.
  Context {BA BN I U : Type}.
  Variable W : env Z Z Z BA BN.

  (** a grid of at least nine cells; every cell has an initial number of grains, nothing else has *)
  Definition sand_grid (rows cols : Z) (c : cond Z Z) : Prop :=
    0 < rows /\ 0 < cols /\ 9 <= rows * cols /\ Z.of_nat (length (to_dict W c)) = rows * cols /\ forall v, 0 <= v < rows * cols -> exists x, dget (to_dict W c) v = Some x.

  (** [hs] are the activities of the states that Sandpile(rows, cols, closed) goes through in T timesteps from [c] *)
  Definition sand_history (closed : bool) (rows cols : Z) (c : cond Z Z) (T : Z) (hs : list (dict Z Z)) : Prop :=
    exists o fuel (u0 : U) (g : @args Z Z Z U I) uf traj, sandpile_init rows cols closed = Ok o /\ static g (stateless (sandpile_rule o)) /\
      1 <= T /\ (Z.to_nat T <= fuel)%nat /\ evolve W fuel u0 (sp_net o) (Some c) (Some T) None g = Ok (uf, traj) /\ Forall2 (fun s S => activities W s = Ok (Some S)) traj hs.

  Theorem C53_runs : forall rows cols closed c T, sand_grid rows cols c -> 1 <= T -> U -> exists hs, sand_history closed rows cols c T hs.
  Proof.
    intros rows cols closed c T (Hr & Hc & Hn & Hl & Hcov) HT u0.
    set (mk := fun o => mkArgs (V:=Z) (U:=U) (I:=I) (Some (stateless (sandpile_rule o))) None None [] ACTIVITIES_FIRST true false true true false None).
    destruct (vn_network rows cols Hr Hc Hn) as (net & En & _). set (o := mkSandpile net (get_boundary_indices rows cols) closed).
    assert (Eo : sandpile_init rows cols closed = Ok o) by (unfold sandpile_init; rewrite En; reflexivity).
    destruct (sandpile_run W rows cols closed (Z.to_nat T) u0 c T (mk o) Hr Hc Hn HT (le_n _) Hl Hcov) as (o' & Eo' & Hrun).
    assert (o' = o) by congruence. subst o'. destruct Hrun as (uf & traj & hs & E & _ & Hs & _); [unfold static, mk; cbn; tauto|].
    exists hs, o, (Z.to_nat T), u0, (mk o), uf, traj. unfold static, mk. cbn. auto 20.
  Qed.

  (** the history: T configurations from the initial one, each the parallel toppling of the one before *)
  Theorem C53_step : forall rows cols closed c T hs, sand_grid rows cols c -> sand_history closed rows cols c T hs ->
    Z.of_nat (length hs) = T /\ nth_error hs 0 = Some (to_dict W c) /\
    forall k S S', nth_error hs k = Some S -> nth_error hs (Datatypes.S k) = Some S' -> forall v, 0 <= v < rows * cols -> dget S' v = Some (sand_next closed rows cols (cell_value S) v).
  Proof.
    intros rows cols closed c T hs (Hr & Hc & Hn & Hl & Hcov) (o & fuel & u0 & g & uf & traj & Eo & Hst & HT & Hf & E & Hs).
    destruct (sandpile_run W rows cols closed fuel u0 c T g Hr Hc Hn HT Hf Hl Hcov) as (o' & Eo' & Hrun). assert (o' = o) by congruence. subst o'.
    destruct (Hrun Hst) as (uf' & traj' & hs' & E' & Hlen & Hs' & Hz & Hfull & Hstep). assert (traj' = traj) by congruence. subst traj'.
    assert (hs' = hs).
    { clear - Hs Hs'. revert hs' Hs'. induction Hs as [|s S traj hs Es _ IH]; intros hs' Hs'; inversion Hs'; subst; [reflexivity|]. f_equal; [congruence|auto]. }
    subst hs'. split; [assumption|]. split; [assumption|]. intros k S S' Ek Ek' v Hv. specialize (Hstep k S S' Ek Ek' v Hv).
    rewrite Forall_forall in Hfull. destruct (Hfull S' (nth_error_In _ _ Ek') v Hv) as [x Ex]. unfold cell_value at 1 in Hstep. rewrite Ex in *. congruence.
  Qed.

  Lemma history_steps rows cols closed c T hs : sand_grid rows cols c -> sand_history closed rows cols c T hs ->
    forall k S S', nth_error hs k = Some S -> nth_error hs (Datatypes.S k) = Some S' -> step rows cols closed (cell_value S) (cell_value S').
  Proof. intros Hg Hh k S S' Ek Ek' v Hv. destruct (C53_step _ _ _ _ _ _ Hg Hh) as (_ & _ & Hs). unfold cell_value at 1. rewrite (Hs k S S' Ek Ek' v Hv). reflexivity. Qed.

  Lemma grains_step rows cols closed s s' : step rows cols closed s s' -> grains rows cols s' = grains rows cols (sand_next closed rows cols s).
  Proof. intros Hs. unfold grains. apply zsum_ext. intros v Hv. apply in_zrange in Hv. apply Hs. lia. Qed.

  (** periodic boundaries: each toppling cell loses the grains for which it has no neighbour *)
  Theorem C53_balance : forall rows cols c T hs, sand_grid rows cols c -> sand_history false rows cols c T hs ->
    forall k S S', nth_error hs k = Some S -> nth_error hs (Datatypes.S k) = Some S' ->
      grains rows cols (cell_value S') = grains rows cols (cell_value S) - (4 - axis_degree rows - axis_degree cols) * toppling rows cols (cell_value S).
  Proof.
    intros rows cols c T hs Hg Hh k S S' Ek Ek'. rewrite (grains_step _ _ _ _ _ (history_steps _ _ _ _ _ _ Hg Hh k S S' Ek Ek')). destruct Hg as (Hr & Hc & _).
    rewrite <- free_balance by assumption. unfold grains. apply zsum_ext. intros v _. reflexivity.
  Qed.

  Theorem C53_conserved : forall rows cols c T hs, 3 <= rows -> 3 <= cols -> sand_grid rows cols c -> sand_history false rows cols c T hs ->
    forall S, In S hs -> grains rows cols (cell_value S) = grains rows cols (cell_value (to_dict W c)).
  Proof.
    intros rows cols c T hs H3 H3' Hg Hh S HS. apply In_nth_error in HS. destruct HS as [k Ek]. revert S Ek. induction k as [|k IH]; intros S Ek.
    - destruct (C53_step _ _ _ _ _ _ Hg Hh) as (_ & Hz & _). congruence.
    - destruct (nth_error hs k) as [S0|] eqn:E0; [|apply nth_error_None in E0; assert (Hlt : (Datatypes.S k < length hs)%nat) by (apply nth_error_Some; congruence); lia].
      rewrite (C53_balance _ _ _ _ _ Hg Hh k S0 S E0 Ek), (IH S0 eq_refl). assert (Ha : forall n, 3 <= n -> axis_degree n = 2) by (intros n Hx; unfold axis_degree; destruct (Z.leb_spec n 1), (Z.eqb_spec n 2); lia). rewrite !Ha by assumption. lia.
  Qed.

  (** on a grid with fewer than three rows or columns, grains are lost whenever a cell topples *)
  Theorem C53_thin_loses : forall rows cols c T hs, rows < 3 \/ cols < 3 -> sand_grid rows cols c -> sand_history false rows cols c T hs ->
    forall k S S' v, nth_error hs k = Some S -> nth_error hs (Datatypes.S k) = Some S' -> 0 <= v < rows * cols -> 4 <= cell_value S v ->
      grains rows cols (cell_value S') < grains rows cols (cell_value S).
  Proof.
    intros rows cols c T hs H3 Hg Hh k S S' v Ek Ek' Hv Hge. rewrite (C53_balance _ _ _ _ _ Hg Hh k S S' Ek Ek').
    assert (Ht : toppling rows cols (cell_value S) <> 0) by (rewrite toppling_zero; intros Hx; specialize (Hx v Hv); lia). pose proof (toppling_nonneg rows cols (cell_value S)).
    assert (Ha : axis_degree rows + axis_degree cols < 4) by (unfold axis_degree; destruct (Z.leb_spec rows 1), (Z.eqb_spec rows 2), (Z.leb_spec cols 1), (Z.eqb_spec cols 2); lia). nia.
  Qed.

  Definition nonnegative (c : cond Z Z) : Prop := forall v x, dget (to_dict W c) v = Some x -> 0 <= x.

  Lemma history_nonneg rows cols closed c T hs : sand_grid rows cols c -> nonnegative c -> sand_history closed rows cols c T hs -> forall k S, nth_error hs k = Some S -> nonneg rows cols (cell_value S).
  Proof.
    intros Hg Hn Hh. pose proof (history_steps _ _ _ _ _ _ Hg Hh) as Hst. destruct (C53_step _ _ _ _ _ _ Hg Hh) as (_ & Hz & _). induction k as [|k IH]; intros S Ek.
    - assert (S = to_dict W c) by congruence. subst S. intros v _. unfold cell_value. destruct (dget (to_dict W c) v) eqn:E; [exact (Hn _ _ E)|lia].
    - destruct (nth_error hs k) as [S0|] eqn:E0; [|apply nth_error_None in E0; assert (Hlt : (Datatypes.S k < length hs)%nat) by (apply nth_error_Some; congruence); lia].
      eapply step_nonneg; [exact (Hst k S0 S E0 Ek)|]. apply IH. reflexivity.
  Qed.

  Theorem C53_never_increases : forall rows cols closed c T hs, sand_grid rows cols c -> nonnegative c -> sand_history closed rows cols c T hs ->
    forall k S S', nth_error hs k = Some S -> nth_error hs (Datatypes.S k) = Some S' ->
      (forall v, 0 <= v < rows * cols -> 0 <= cell_value S v) /\ grains rows cols (cell_value S') <= grains rows cols (cell_value S).
  Proof.
    intros rows cols closed c T hs Hg Hn Hh k S S' Ek Ek'. pose proof (history_nonneg _ _ _ _ _ _ Hg Hn Hh k S Ek) as Hk. split; [exact Hk|].
    rewrite (grains_step _ _ _ _ _ (history_steps _ _ _ _ _ _ Hg Hh k S S' Ek Ek')). destruct Hg as (Hr & Hc & _). apply closed_nonincreasing; assumption.
  Qed.

  (** C54: from step K on, a number computed from the initial configuration, no cell topples, and nothing changes *)
  Definition settled_by (rows cols : Z) (s : Z -> Z) : Z := 2 + zsum (map (fun v => v / cols * (rows - 1 - v / cols) * (s v + 4)) (zrange 0 (rows * cols))).

  Theorem C54_stabilises : forall rows cols c T hs, sand_grid rows cols c -> nonnegative c -> sand_history true rows cols c T hs ->
    forall k S, settled_by rows cols (cell_value (to_dict W c)) <= Z.of_nat k -> nth_error hs k = Some S ->
      (forall v, 0 <= v < rows * cols -> cell_value S v < 4) /\
      forall S', nth_error hs (Datatypes.S k) = Some S' -> forall v, 0 <= v < rows * cols -> dget S' v = dget S v.
  Proof.
    intros rows cols c T hs Hg Hn Hh k S Hk Ek. pose proof (history_steps _ _ _ _ _ _ Hg Hh) as Hst. destruct (C53_step _ _ _ _ _ _ Hg Hh) as (_ & Hz & Hget).
    pose proof (history_nonneg _ _ _ _ _ _ Hg Hn Hh) as Hnn. pose proof (Hnn 0%nat _ Hz) as Hn0. destruct Hg as (Hr & Hc & Hg).
    assert (Hb0 : 0 <= settle_bound rows cols (cell_value (to_dict W c))).
    { apply zsum_nonneg. intros v Hv. apply in_zrange in Hv. pose proof (h_nonneg rows cols ltac:(assumption) ltac:(assumption) v ltac:(lia)) as Hx. cbn beta in Hx. specialize (Hn0 v ltac:(lia)). nia. }
    unfold settled_by in Hk. fold (settle_bound rows cols (cell_value (to_dict W c))) in Hk. destruct k as [|j]; [lia|].
    assert (Hlt : (Datatypes.S j < length hs)%nat) by (apply nth_error_Some; congruence).
    assert (Hprev : exists S0, nth_error hs j = Some S0) by (destruct (nth_error hs j) eqn:E; [eauto|apply nth_error_None in E; lia]). destruct Hprev as [S0 ES0].
    destruct (nth_error hs 1) as [S1|] eqn:E1; [|apply nth_error_None in E1; lia].
    assert (Hnth : forall i s, nth_error (map cell_value hs) i = Some s -> exists S, nth_error hs i = Some S /\ s = cell_value S) by (intros i s; rewrite nth_error_map; destruct (nth_error hs i) as [X|]; [|discriminate]; cbn; intros Hx; injection Hx as <-; eauto).
    destruct (settles rows cols Hr Hc (map cell_value hs) (cell_value (to_dict W c))) as (_ & Hset).
    - rewrite nth_error_map, Hz. reflexivity.
    - exact Hn0.
    - intros i s s' Ei Ei'. destruct (Hnth _ _ Ei) as (X & EX & ->). destruct (Hnth _ _ Ei') as (X' & EX' & ->). eapply Hst; eassumption.
    - destruct (Hset (cell_value S1)) with (j := j) (s := cell_value S) as [Hb Ht]; [rewrite nth_error_map, E1; reflexivity|rewrite nth_error_map, Ek; reflexivity|].
      assert (Ht0 : toppling rows cols (cell_value S) = 0).
      { destruct Ht as [Ht|Ht]; [exact Ht|]. exfalso. pose proof (pot_first rows cols Hr Hc _ _ Hn0 (Hst 0%nat _ _ Hz E1)). pose proof (pot_nonneg rows cols ltac:(assumption) ltac:(assumption) _ (Hnn _ _ Ek)). lia. }
      split; [apply toppling_zero; exact Ht0|]. intros S' Ek' v Hv. rewrite (Hget _ _ _ Ek Ek' v Hv), (Hget _ _ _ ES0 Ek v Hv). f_equal.
      transitivity (cell_value S' v); [symmetry; exact (Hst _ _ _ Ek Ek' v Hv)|]. rewrite (stable_step rows cols _ _ Hb (Hst _ _ _ Ek Ek') Ht0 v Hv). exact (Hst _ _ _ ES0 Ek v Hv).
  Qed.

  (** with periodic boundaries this fails: with more than three grains per cell, some cell topples in every state *)
  Theorem C54_periodic_overfull : forall rows cols c T hs, 3 <= rows -> 3 <= cols -> sand_grid rows cols c -> sand_history false rows cols c T hs ->
    3 * (rows * cols) < grains rows cols (cell_value (to_dict W c)) -> forall S, In S hs -> exists v, 0 <= v < rows * cols /\ 4 <= cell_value S v.
  Proof.
    intros rows cols c T hs H3 H3' Hg Hh Hm S HS. rewrite <- (C53_conserved _ _ _ _ _ H3 H3' Hg Hh S HS) in Hm.
    destruct (Z.eq_dec (toppling rows cols (cell_value S)) 0) as [Ht|Ht].
    - exfalso. rewrite toppling_zero in Ht. assert (Hle : grains rows cols (cell_value S) <= zsum (map (fun _ => 3) (zrange 0 (rows * cols)))) by (apply zsum_le; intros v Hv; apply in_zrange in Hv; specialize (Ht v ltac:(lia)); lia).
      assert (E : forall l : list Z, zsum (map (fun _ => 3) l) = 3 * Z.of_nat (length l)) by (induction l as [|x l IH]; [reflexivity|cbn [map length]; rewrite zsum_cons, IH; lia]). rewrite E, length_zrange in Hle. nia.
    - assert (Hx : existsb (fun v => 4 <=? cell_value S v) (zrange 0 (rows * cols)) = true).
      { destruct (existsb _ _) eqn:E; [reflexivity|]. exfalso. apply Ht. apply toppling_zero. intros v Hv. destruct (Z.ltb_spec (cell_value S v) 4); [assumption|]. assert (Hf : existsb (fun v => 4 <=? cell_value S v) (zrange 0 (rows * cols)) = true) by (apply existsb_exists; exists v; split; [apply in_zrange; lia|apply Z.leb_le; lia]). congruence. }
      apply existsb_exists in Hx. destruct Hx as (v & Hv & Hge). apply in_zrange in Hv. apply Z.leb_le in Hge. exists v. split; [lia|assumption].
  Qed.
End Runs.

(** ** Examples *)
Definition sand_args (o : sandpile) : @args Z Z Z unit Z := mkArgs (Some (stateless (sandpile_rule o))) None None [] ACTIVITIES_FIRST true false true true false None.
Definition sand_shown (closed : bool) rows cols l T : res (list (option (list Z))) :=
  o <- sandpile_init rows cols closed ;;
  ' (_, tr) <- evolve W0 (Z.to_nat T) tt (sp_net o) (Some (CList l)) (Some T) None (sand_args o) ;;
  rmap (fun s => a <- activities W0 s ;; Ok (option_map (fun S => map (cell_value S) (zrange 0 (rows * cols))) a)) tr.

Lemma sand_grid_list rows cols l : 0 < rows -> 0 < cols -> 9 <= rows * cols -> Z.of_nat (length l) = rows * cols -> sand_grid W0 rows cols (CList l).
Proof.
  intros Hr Hc Hn Hl. unfold sand_grid. split; [assumption|]. split; [assumption|]. split; [assumption|]. cbn [to_dict]. split; [unfold enumerate; rewrite map_length, combine_length, seq_length; lia|].
  intros v Hv. eexists. apply dget_listed; [reflexivity|]. lia.
Qed.

Lemma nonnegative_list l : Forall (fun x => 0 <= x) l -> nonnegative W0 (CList l).
Proof.
  intros Hl v x E. rewrite Forall_forall in Hl. apply Hl. apply dget_some_in in E. cbn [to_dict] in E. apply in_map_iff in E. destruct E as ([i y] & Ei & Hi). cbn in Ei. injection Ei as _ <-. unfold enumerate in Hi. apply in_combine_r in Hi. assumption.
Qed.

Definition grid33 := [0; 5; 0; 4; 7; 2; 1; 0; 0].
Example C53_nonvacuous : sand_grid W0 3 3 (CList grid33) /\ nonnegative W0 (CList grid33) /\
  sand_shown false 3 3 grid33 4 = Ok [Some [0; 5; 0; 4; 7; 2; 1; 0; 0]; Some [2; 2; 1; 1; 5; 4; 2; 2; 0]; Some [2; 3; 2; 3; 2; 1; 2; 3; 1]; Some [2; 3; 2; 3; 2; 1; 2; 3; 1]].
Proof. split; [apply sand_grid_list; vm_compute; congruence|]. split; [apply nonnegative_list; repeat constructor; lia|]. vm_compute. reflexivity. Qed.

Definition grid44 := [9; 0; 0; 0; 0; 9; 3; 0; 0; 3; 3; 0; 0; 0; 0; 0].
Example C54_nonvacuous : sand_grid W0 4 4 (CList grid44) /\ nonnegative W0 (CList grid44) /\ settled_by 4 4 (cell_value (to_dict W0 (CList grid44))) = 102 /\
  sand_shown true 4 4 grid44 6 = Ok (map Some
    [ [9; 0; 0; 0; 0; 9; 3; 0; 0; 3; 3; 0; 0; 0; 0; 0]; [0; 0; 0; 0; 0; 5; 4; 0; 0; 4; 3; 0; 0; 0; 0; 0]; [0; 0; 0; 0; 0; 3; 1; 0; 0; 1; 5; 0; 0; 0; 0; 0];
      [0; 0; 0; 0; 0; 3; 2; 0; 0; 2; 1; 0; 0; 0; 0; 0]; [0; 0; 0; 0; 0; 3; 2; 0; 0; 2; 1; 0; 0; 0; 0; 0]; [0; 0; 0; 0; 0; 3; 2; 0; 0; 2; 1; 0; 0; 0; 0; 0] ]).
Proof. split; [apply sand_grid_list; vm_compute; congruence|]. split; [apply nonnegative_list; repeat constructor; lia|]. split; vm_compute; reflexivity. Qed.

(** conservation does not hold with two rows: a cell's only neighbour in its column gets one grain, not two *)
Theorem C53_two_rows_refuted : exists l a, sand_grid W0 2 5 (CList l) /\ nonnegative W0 (CList l) /\ sand_shown false 2 5 l 2 = Ok [Some l; Some a] /\ zsum a < zsum l.
Proof. exists [0; 0; 4; 0; 0; 0; 0; 0; 0; 0]. eexists. split; [apply sand_grid_list; vm_compute; congruence|]. split; [apply nonnegative_list; repeat constructor; lia|]. split; [vm_compute; reflexivity|]. reflexivity. Qed.

Example C54_overfull_nonvacuous : sand_grid W0 3 3 (CList [4; 2; 3; 3; 9; 3; 3; 0; 3]) /\ 3 * (3 * 3) < grains 3 3 (cell_value (to_dict W0 (CList [4; 2; 3; 3; 9; 3; 3; 0; 3]))).
Proof. split; [apply sand_grid_list; vm_compute; congruence|reflexivity]. Qed.

Print Assumptions C53_runs.
Print Assumptions C53_step.
Print Assumptions C53_balance.
Print Assumptions C53_conserved.
Print Assumptions C53_thin_loses.
Print Assumptions C53_never_increases.
Print Assumptions C53_two_rows_refuted.
Print Assumptions C54_stabilises.
Print Assumptions C54_periodic_overfull.
