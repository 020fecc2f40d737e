(** * C120: the order of the topplings does not matter; the sandpile demo *)
From Verif Require Import Py PyFacts ListFacts Network Topology TopologySpec TopologyProofs Evolve EvolveSpec EvolveProofs EvolveProofs2 EvolveProofs3 EvolveStatic PertRun PropEvolve HopfieldProofs HopfieldProofs2.
From Verif Require Import SandpileSpec Sandpile SandpileProofs SandpileProofs2 PropSandpile AbelSpec SandpileDemo SandpileAbel.
Open Scope string_scope.
Open Scope list_scope.
Open Scope Z_scope.

(** ** topplings one at a time *)
(** two sequences of allowed topplings that bring the same grains to rest topple each cell equally often and end in the same configuration *)
Theorem C120_abelian : forall closed rows cols s l1 s1 l2 s2, edge_empty closed rows cols s ->
  topples closed rows cols s l1 s1 -> topples closed rows cols s l2 s2 -> stable rows cols s1 -> stable rows cols s2 ->
  Permutation l1 l2 /\ forall w, 0 <= w < rows * cols -> s1 w = s2 w.
Proof. intros closed rows cols s l1 s1 l2 s2 He H1 H2 S1 S2. exact (abelian closed rows cols s l1 s1 l2 s2 He H1 H2 S1 S2). Qed.
Print Assumptions C120_abelian.

(** a sequence that brings the grains to rest is as long as any: every other sequence of allowed topplings is a part of it *)
Theorem C120_least : forall closed rows cols s l s' m t, edge_empty closed rows cols s ->
  topples closed rows cols s l s' -> topples closed rows cols s m t -> stable rows cols t -> exists m', Permutation m (l ++ m').
Proof. intros closed rows cols s l s' m t He Hl Hm Ht. eapply least_action; [exact Hl|]. eapply stable_after; eassumption. Qed.
Print Assumptions C120_least.

(** the parallel timestep of the sandpile is such a sequence: each cell with at least 4 grains once *)
Theorem C120_timestep : forall closed rows cols s, edge_empty closed rows cols s ->
  exists l, topples closed rows cols s l (sand_next closed rows cols s) /\ NoDup l /\ forall v, In v l <-> 0 <= v < rows * cols /\ 4 <= s v.
Proof.
  intros closed rows cols s He. exists (overfull rows cols s). split; [apply step_topples; [exact He|intros v Hv; reflexivity]|]. split; [apply NoDup_filter, NoDup_zrange|]. apply in_overfull.
Qed.
Print Assumptions C120_timestep.

(** ** the script *)
Section Demo.
  Context {U I BA BN : Type} (W : env Z Z Z BA BN).
  Hypothesis Hlab : forall i, e_lab W i = Z.of_nat i.

  (** [hs] are the activities of the states in the trajectory of the script *)
  Definition demo_history (closed : bool) (rows cols : Z) (init : list Z) (when cell T : Z) (hs : list (dict Z Z)) : Prop :=
    exists fuel (u0 : U) traj, 1 <= T /\ (Z.to_nat T <= fuel)%nat /\ sandpile_demo (I := I) W fuel u0 rows cols closed init when cell T = Ok traj /\ Forall2 (fun s S => activities W s = Ok (Some S)) traj hs.

  Definition pile (rows cols : Z) (init : list Z) : Prop := 0 < rows /\ 0 < cols /\ 9 <= rows * cols /\ Z.of_nat (length init) = rows * cols.
  Definition start (init : list Z) (v : Z) : Z := nth (Z.to_nat v) init 0.
  (** what the perturbation adds in timestep [t] to the cell [v] *)
  Definition drop (when cell t v : Z) : Z := if (t =? when) && (v =? cell) then 1 else 0.

  Lemma start_dict rows cols init v : pile rows cols init -> 0 <= v < rows * cols -> dget (to_dict W (CList init)) v = Some (start init v).
  Proof. intros (_ & _ & _ & Hl) Hv. cbn [to_dict]. apply (dget_listed (e_lab W)); [exact Hlab|lia]. Qed.

  Lemma drop_run closed rows cols init when cell T fuel (u0 : U) : pile rows cols init -> 1 <= T -> (Z.to_nat T <= fuel)%nat ->
    exists traj hs, sandpile_demo (I := I) W fuel u0 rows cols closed init when cell T = Ok traj /\ Z.of_nat (length hs) = T /\ Forall2 (fun s S => activities W s = Ok (Some S)) traj hs /\
      nth_error hs 0 = Some (to_dict W (CList init)) /\
      forall k S S', nth_error hs k = Some S -> nth_error hs (Datatypes.S k) = Some S' -> forall v, 0 <= v < rows * cols ->
        dget S' v = Some (sand_next closed rows cols (cell_value S) v + drop when cell (Z.of_nat k + 1) v).
  Proof.
    intros Hp HT Hf. pose proof Hp as (Hr & Hc & Hn & Hl). destruct (vn_network rows cols Hr Hc Hn) as (net & E & Hnd & Hnodes & Hclosed & Hnb).
    unfold sandpile_demo, sandpile_init. rewrite E. cbn [rbind sp_net]. set (o := mkSandpile net (get_boundary_indices rows cols) closed).
    assert (Hnl : net_len net = Z.to_nat (rows * cols)).
    { replace (net_len net) with (length (nodes net)) by (unfold nodes, dkeys; apply map_length). assert (Hpm : Permutation (nodes net) (zrange 0 (rows * cols))).
      { apply NoDup_Permutation; [assumption|apply NoDup_zrange|]. intros v. rewrite in_zrange. apply Hnodes. }
      rewrite (Permutation_length Hpm), length_zrange. f_equal. lia. }
    set (full := fun S : dict Z Z => forall v, 0 <= v < rows * cols -> exists x, dget S v = Some x).
    destruct (noisy_run W fuel u0 net (CList init) T (drop_args (I := I) o when cell) (sandpile_rule o) (drop_grain when cell) (Forall full) (fun _ _ _ => True)
      (fun k v a b => b = a + drop when cell (Z.of_nat k + 1) v)) as (uf & traj & hs & Ee & Hlen & Hshow & Hfull & Hz & Hs).
    - repeat split; reflexivity.
    - exact Hnd.
    - exact HT.
    - exact Hf.
    - cbn [to_dict]. unfold enumerate. rewrite map_length, combine_length, seq_length. lia.
    - exact Hclosed.
    - intros v Hv. apply Hnodes in Hv. eexists. eapply start_dict; eassumption.
    - constructor; [|constructor]. intros v Hv. eexists. eapply start_dict; eassumption.
    - exact Logic.I.
    - intros hist S v x Hi Hv Hx. apply Hnodes in Hv. eexists. exact (sand_rule W rows cols o S _ _ _ v x Hr Hc Hv eq_refl (fun l Hl' => Hnb v l Hv Hl') Hx).
    - intros k done v rest u a i _ _. unfold drop_grain, drop. cbn [p_time p_label p_act]. destruct ((Z.of_nat k + 1 =? when) && (v =? cell)); eexists _, _; (split; [reflexivity|]); (split; [lia|exact Logic.I]).
    - intros; exact Logic.I.
    - intros hist S S' Hi Hcv _ Hu. apply Forall_app. split; [assumption|]. constructor; [|constructor]. intros v Hv. apply Hcv, Hnodes, Hv.
    - exists traj, hs. rewrite Ee. cbn [rbind]. split; [reflexivity|]. split; [assumption|]. split; [|split; [assumption|]].
      + clear - Hshow Hfull Hn. induction Hshow as [|s S traj hs Es Hf IH]; [constructor|]. inversion Hfull as [|? ? HS Hrest]; subst. constructor; [|apply IH; assumption].
        rewrite Es. destruct S; [|reflexivity]. exfalso. destruct (HS 0 ltac:(lia)); discriminate.
      + intros k S S' Ek Ek' v Hv. destruct (Hs k S S' Ek Ek') as [_ Hu]. destruct (Hu v (proj2 (Hnodes _) Hv)) as (x & a & b & Hx & Ea & -> & Ed). rewrite Ed. do 2 f_equal.
        rewrite (sand_rule W rows cols o S _ _ _ v x Hr Hc Hv eq_refl (fun l Hl' => Hnb v l Hv Hl') Hx) in Ea. injection Ea as <-. reflexivity.
  Qed.

  Theorem C120_runs : forall closed rows cols init when cell T, pile rows cols init -> 1 <= T -> U -> exists hs, demo_history closed rows cols init when cell T hs.
  Proof.
    intros closed rows cols init when cell T Hp HT u0. destruct (drop_run closed rows cols init when cell T (Z.to_nat T) u0 Hp HT (le_n _)) as (traj & hs & E & _ & Hs & _).
    exists hs, (Z.to_nat T), u0, traj. auto.
  Qed.

  (** each state is the parallel toppling of the one before, plus the dropped grain *)
  Theorem C120_script : forall closed rows cols init when cell T hs, pile rows cols init -> demo_history closed rows cols init when cell T hs ->
    Z.of_nat (length hs) = T /\ (forall S, nth_error hs 0 = Some S -> forall v, 0 <= v < rows * cols -> dget S v = Some (start init v)) /\
    forall k S S', nth_error hs k = Some S -> nth_error hs (Datatypes.S k) = Some S' -> forall v, 0 <= v < rows * cols ->
      dget S' v = Some (sand_next closed rows cols (cell_value S) v + drop when cell (Z.of_nat k + 1) v).
  Proof.
    intros closed rows cols init when cell T hs Hp (fuel & u0 & traj & HT & Hf & E & Hs).
    destruct (drop_run closed rows cols init when cell T fuel u0 Hp HT Hf) as (traj' & hs' & E' & Hlen & Hs' & Hz & Hstep). assert (traj' = traj) by congruence. subst traj'.
    assert (hs' = hs).
    { clear - Hs Hs'. revert hs' Hs'. induction Hs as [|s S traj hs Es _ IH]; intros hs' Hs'; inversion Hs'; subst; [reflexivity|]. f_equal; [congruence|auto]. }
    subst hs'. split; [exact Hlen|]. split; [|exact Hstep]. intros S ES v Hv. assert (S = to_dict W (CList init)) as -> by congruence. eapply start_dict; eassumption.
  Qed.

  (** ** where the grains end *)
  Lemma plus_grain_edge closed rows cols cell s : live closed rows cols cell -> edge_empty closed rows cols s -> edge_empty closed rows cols (plus_grain cell s).
  Proof. intros [_ Hc] He v Hv Ev. unfold plus_grain. rewrite (He v Hv Ev). destruct (Z.eqb_spec v cell) as [->|]; [congruence|reflexivity]. Qed.

  Lemma next_edge closed rows cols s : edge_empty closed rows cols (sand_next closed rows cols s).
  Proof. intros v Hv Ev. unfold sand_next. unfold edge in Ev. rewrite Ev. reflexivity. Qed.

  Lemma next_ext closed rows cols s s' : (forall v, 0 <= v < rows * cols -> s' v = s v) -> forall v, 0 <= v < rows * cols -> sand_next closed rows cols s' v = sand_next closed rows cols s v.
  Proof.
    intros E v Hv. unfold sand_next, received. rewrite (E v Hv). rewrite (zsum_ext (fun u => if beside rows cols u v && (4 <=? s' u) then 1 else 0) (fun u => if beside rows cols u v && (4 <=? s u) then 1 else 0)); [reflexivity|].
    intros u Hu. apply in_zrange in Hu. rewrite E by lia. reflexivity.
  Qed.

  Section Fixed.
    Variables (closed : bool) (rows cols : Z) (init : list Z) (when cell T : Z) (hs : list (dict Z Z)).
    Hypothesis Hp : pile rows cols init.
    Hypothesis Hh : demo_history closed rows cols init when cell T hs.
    Hypothesis Hcell : live closed rows cols cell.
    Notation s1 := (sand_next closed rows cols (start init)).
    (** the first state, with the grain if it has been dropped by the k-th timestep *)
    Definition base (k : nat) : Z -> Z := if (1 <=? when) && (when <=? Z.of_nat k) then plus_grain cell s1 else s1.

    Lemma cv_step k S S' : nth_error hs k = Some S -> nth_error hs (Datatypes.S k) = Some S' -> forall v, 0 <= v < rows * cols ->
      cell_value S' v = sand_next closed rows cols (cell_value S) v + drop when cell (Z.of_nat k + 1) v.
    Proof. intros Ek Ek' v Hv. destruct (C120_script _ _ _ _ _ _ _ _ Hp Hh) as (_ & _ & Hs). unfold cell_value at 1. rewrite (Hs k S S' Ek Ek' v Hv). reflexivity. Qed.

    Lemma cv_start S : nth_error hs 0 = Some S -> forall v, 0 <= v < rows * cols -> cell_value S v = start init v.
    Proof. intros E v Hv. destruct (C120_script _ _ _ _ _ _ _ _ Hp Hh) as (_ & Hz & _). unfold cell_value. rewrite (Hz S E v Hv). reflexivity. Qed.

    Lemma previous k S : nth_error hs (Datatypes.S k) = Some S -> exists S0, nth_error hs k = Some S0.
    Proof. intros E. destruct (nth_error hs k) as [S0|] eqn:E0; [eauto|]. apply nth_error_None in E0. assert (Hlt : (Datatypes.S k < length hs)%nat) by (apply nth_error_Some; congruence). lia. Qed.

    Lemma base_edge k : edge_empty closed rows cols (base k).
    Proof. unfold base. destruct (_ && _); [apply plus_grain_edge; [exact Hcell|]|]; apply next_edge. Qed.

    Lemma reach k : forall S, nth_error hs (Datatypes.S k) = Some S -> exists l, topples closed rows cols (base (Datatypes.S k)) l (cell_value S) /\ forall w, times l w <= Z.of_nat k.
    Proof.
      induction k as [|k IH]; intros S ES; destruct (previous _ _ ES) as [S0 ES0]; pose proof (cv_step _ _ _ ES0 ES) as Hs.
      - exists []. split; [|intros w; cbn; lia]. constructor. intros w Hw. rewrite (Hs w Hw), (next_ext _ _ _ _ _ (cv_start S0 ES0) w Hw). unfold drop, base, plus_grain. change (Z.of_nat 0 + 1) with 1.
        destruct (Z.eqb_spec 1 when) as [<-|Hne]; cbn [andb].
        + change (1 <=? 1) with true. cbn [andb]. destruct (Z.leb_spec 1 (Z.of_nat 1)); [reflexivity|lia].
        + destruct (Z.leb_spec 1 when), (Z.leb_spec when (Z.of_nat 1)); cbn [andb]; rewrite ?Z.add_0_r; first [reflexivity|exfalso; lia].
      - destruct (IH S0 ES0) as (l & Hl & Htm). pose proof (base_edge (Datatypes.S k)) as Hb. pose proof (topples_empty _ _ _ _ _ _ Hl Hb) as He.
        set (s := cell_value S0) in *. pose proof (step_topples closed rows cols s (sand_next closed rows cols s) He (fun v _ => eq_refl)) as Hst.
        pose proof (topples_app _ _ _ _ _ _ _ _ Hl Hst) as Hl'. exists (l ++ overfull rows cols s). split.
        2:{ intros w. rewrite times_app. specialize (Htm w). pose proof (overfull_once rows cols s w). lia. }
        destruct (Z.eqb_spec (Z.of_nat (Datatypes.S k) + 1) when) as [Ew|Hne].
        + assert (Eb : base (Datatypes.S k) = s1) by (unfold base; destruct (Z.leb_spec 1 when), (Z.leb_spec when (Z.of_nat (Datatypes.S k))); cbn [andb]; try reflexivity; lia).
          assert (Eb' : base (Datatypes.S (Datatypes.S k)) = plus_grain cell s1) by (unfold base; destruct (Z.leb_spec 1 when), (Z.leb_spec when (Z.of_nat (Datatypes.S (Datatypes.S k)))); cbn [andb]; try reflexivity; lia).
          rewrite Eb in Hl'. rewrite Eb'. eapply topples_ext_r.
          * apply (topples_more _ _ _ _ _ _ (fun w => if w =? cell then 1 else 0) Hl'); [intros w _; destruct (w =? cell); lia|]. intros w _ Ew'. destruct (Z.eqb_spec w cell) as [->|]; [rewrite (proj2 Hcell) in Ew'; discriminate|reflexivity].
          * intros w Hw. rewrite (Hs w Hw). unfold drop. rewrite Ew, Z.eqb_refl. reflexivity.
        + assert (Eb : base (Datatypes.S (Datatypes.S k)) = base (Datatypes.S k)) by (unfold base; destruct (Z.leb_spec 1 when), (Z.leb_spec when (Z.of_nat (Datatypes.S k))), (Z.leb_spec when (Z.of_nat (Datatypes.S (Datatypes.S k)))); cbn [andb]; try reflexivity; lia).
          rewrite Eb. eapply topples_ext_r; [exact Hl'|]. intros w Hw. rewrite (Hs w Hw). unfold drop. destruct (Z.eqb_spec (Z.of_nat (Datatypes.S k) + 1) when); [contradiction|]. cbn [andb]. lia.
    Qed.

    Lemma base_dropped k : 1 <= when <= Z.of_nat k -> base k = plus_grain cell s1.
    Proof. intros Hk. unfold base. destruct (Z.leb_spec 1 when), (Z.leb_spec when (Z.of_nat k)); cbn [andb]; try reflexivity; lia. Qed.

    Lemma cv_get k S : nth_error hs k = Some S -> forall v, 0 <= v < rows * cols -> dget S v = Some (cell_value S v).
    Proof.
      intros Ek v Hv. destruct (C120_script _ _ _ _ _ _ _ _ Hp Hh) as (_ & Hz & Hs). unfold cell_value. destruct k as [|k]; [rewrite (Hz S Ek v Hv); reflexivity|]. destruct (previous _ _ Ek) as [S0 E0]. rewrite (Hs k S0 S E0 Ek v Hv). reflexivity.
    Qed.

    Definition sg (k : nat) : Z -> Z := cell_value (nth k hs []).
    Lemma sg_nth k S : nth_error hs k = Some S -> sg k = cell_value S.
    Proof. intros E. unfold sg. erewrite nth_error_nth by exact E. reflexivity. Qed.

    Lemma later_step k : when <= Z.of_nat k -> (Datatypes.S k < length hs)%nat -> step rows cols closed (sg k) (sg (Datatypes.S k)).
    Proof.
      intros Hw Hk v Hv. destruct (nth_error hs (Datatypes.S k)) as [S'|] eqn:E'; [|apply nth_error_None in E'; lia]. destruct (previous _ _ E') as [S E]. rewrite (sg_nth _ _ E), (sg_nth _ _ E').
      rewrite (cv_step _ _ _ E E' v Hv). unfold drop. destruct (Z.eqb_spec (Z.of_nat k + 1) when); [lia|]. cbn [andb]. lia.
    Qed.

    Lemma rest_at m t k S : 1 <= when -> topples closed rows cols (plus_grain cell s1) m t -> stable rows cols t -> when + Z.of_nat (length m) <= Z.of_nat k -> nth_error hs k = Some S ->
      forall v, 0 <= v < rows * cols -> dget S v = Some (t v).
    Proof.
      intros Hw Hm Ht Hk ES v Hv. set (k0 := Z.to_nat when). assert (Hk0 : Z.of_nat k0 = when) by (unfold k0; lia). clearbody k0. assert (Hlt : (k < length hs)%nat) by (apply nth_error_Some; congruence).
      destruct (nth_error hs k0) as [S0|] eqn:E0; [|apply nth_error_None in E0; lia].
      assert (Hbe : edge_empty closed rows cols (plus_grain cell s1)) by (apply plus_grain_edge; [exact Hcell|apply next_edge]).
      destruct k0 as [|j] eqn:Ej; [lia|]. destruct (reach j S0 E0) as (l0 & Hl0 & _). rewrite base_dropped in Hl0 by lia.
      destruct (least_action _ _ _ _ _ _ Hl0 m (stable_after _ _ _ _ _ _ Hm Hbe Ht)) as [m' Hpm].
      assert (Hst : stable rows cols (sg k)).
      { replace k with (Datatypes.S j + (k - Datatypes.S j))%nat by lia.
        apply (rest_bound closed rows cols (fun i => sg (Datatypes.S j + i)%nat) (length hs - 1 - Datatypes.S j)%nat) with (k := 0%nat) (n := (k - Datatypes.S j)%nat) (m := m').
        - intros i Hi. rewrite Nat.add_succ_r. apply later_step; lia.
        - rewrite Nat.add_0_r, (sg_nth _ _ E0). eapply topples_empty; eassumption.
        - intros w Hwl. rewrite Nat.add_0_r, (sg_nth _ _ E0). rewrite (after_app _ _ _ _ _ _ m' Hl0 Hbe w Hwl), <- (after_perm _ _ _ _ _ _ w Hpm). eapply stable_after; eassumption.
        - apply Permutation_length in Hpm. rewrite app_length in Hpm. lia.
        - lia. }
      rewrite (sg_nth _ _ ES) in Hst. rewrite (cv_get _ _ ES v Hv). f_equal. destruct k as [|i]; [lia|]. destruct (reach i S ES) as (l & Hl & _). rewrite base_dropped in Hl by lia.
      apply (abelian _ _ _ _ _ _ _ _ Hbe Hl Hm Hst Ht). exact Hv.
    Qed.
  End Fixed.

  (** if the grains of the first state and the dropped one can be brought to rest at all, by the topplings [m] in any order, then the script brings them to rest, at the latest
      [length m] timesteps after the drop, in the configuration that [m] leads to *)
  Theorem C120_rest : forall closed rows cols init when cell T hs m t, pile rows cols init -> demo_history closed rows cols init when cell T hs -> live closed rows cols cell -> 1 <= when ->
    topples closed rows cols (plus_grain cell (sand_next closed rows cols (start init))) m t -> stable rows cols t ->
    forall k S, when + Z.of_nat (length m) <= Z.of_nat k -> nth_error hs k = Some S -> forall v, 0 <= v < rows * cols -> dget S v = Some (t v).
  Proof. intros closed rows cols init when cell T hs m t Hp Hh Hc Hw Hm Ht k S Hk ES. exact (rest_at closed rows cols init when cell T hs Hp Hh Hc m t k S Hw Hm Ht Hk ES). Qed.

  (** when the grain is dropped does not matter in the end *)
  Theorem C120_drop_time : forall closed rows cols init cell w1 T1 hs1 w2 T2 hs2, pile rows cols init -> live closed rows cols cell -> 1 <= w1 -> 1 <= w2 ->
    demo_history closed rows cols init w1 cell T1 hs1 -> demo_history closed rows cols init w2 cell T2 hs2 ->
    forall k1 S1 k2 S2, w1 <= Z.of_nat k1 -> w2 <= Z.of_nat k2 -> nth_error hs1 k1 = Some S1 -> nth_error hs2 k2 = Some S2 -> stable rows cols (cell_value S1) -> stable rows cols (cell_value S2) ->
      forall v, 0 <= v < rows * cols -> dget S1 v = dget S2 v.
  Proof.
    intros closed rows cols init cell w1 T1 hs1 w2 T2 hs2 Hp Hc Hw1 Hw2 Hh1 Hh2 k1 S1 k2 S2 Hk1 Hk2 E1 E2 St1 St2 v Hv.
    rewrite (cv_get _ _ _ _ _ _ _ _ Hp Hh1 _ _ E1 v Hv), (cv_get _ _ _ _ _ _ _ _ Hp Hh2 _ _ E2 v Hv). f_equal.
    destruct k1 as [|k1]; [lia|]. destruct k2 as [|k2]; [lia|]. destruct (reach _ _ _ _ _ _ _ _ Hp Hh1 Hc k1 S1 E1) as (l1 & Hl1 & _). destruct (reach _ _ _ _ _ _ _ _ Hp Hh2 Hc k2 S2 E2) as (l2 & Hl2 & _).
    rewrite base_dropped in Hl1, Hl2 by lia. refine (proj2 (abelian _ _ _ _ _ _ _ _ _ Hl1 Hl2 St1 St2) v Hv). apply plus_grain_edge; [exact Hc|apply next_edge].
  Qed.

  (** a grain that is dropped on the border of a closed pile is gone after one timestep and changes nothing else *)
  Theorem C120_edge_drop : forall rows cols init when cell T hs hs0, pile rows cols init -> 0 <= cell < rows * cols -> border rows cols cell = true ->
    demo_history true rows cols init when cell T hs -> demo_history true rows cols init 0 cell T hs0 ->
    forall k S S0, nth_error hs k = Some S -> nth_error hs0 k = Some S0 -> forall v, 0 <= v < rows * cols -> ~ (Z.of_nat k = when /\ v = cell /\ 1 <= when) -> dget S v = dget S0 v.
  Proof.
    intros rows cols init when cell T hs hs0 Hp Hcr Hb Hh Hh0.
    assert (Hk : forall k S S0, nth_error hs k = Some S -> nth_error hs0 k = Some S0 -> forall v, 0 <= v < rows * cols ->
      cell_value S v = cell_value S0 v + (if (1 <=? Z.of_nat k) && (Z.of_nat k =? when) && (v =? cell) then 1 else 0) /\ ((1 <= k)%nat -> border rows cols v = true -> cell_value S0 v = 0)).
    { induction k as [|k IH]; intros S S0 E E0 v Hv.
      - rewrite (cv_start _ _ _ _ _ _ _ _ Hp Hh S E v Hv), (cv_start _ _ _ _ _ _ _ _ Hp Hh0 S0 E0 v Hv). change (1 <=? Z.of_nat 0) with false. cbn [andb]. split; [lia|intros; lia].
      - destruct (previous _ _ _ E) as [P EP]. destruct (previous _ _ _ E0) as [P0 EP0]. rewrite (cv_step _ _ _ _ _ _ _ _ Hp Hh _ _ _ EP E v Hv), (cv_step _ _ _ _ _ _ _ _ Hp Hh0 _ _ _ EP0 E0 v Hv).
        specialize (IH P P0 EP EP0).
        assert (Eq : sand_next true rows cols (cell_value P) v = sand_next true rows cols (cell_value P0) v).
        { unfold sand_next. cbn [andb]. destruct (border rows cols v) eqn:Ev; [reflexivity|]. assert (Ecv : forall u, 0 <= u < rows * cols -> (4 <=? cell_value P u) = (4 <=? cell_value P0 u)).
          { intros u Hu. destruct (IH u Hu) as [Ex Ez]. destruct (Z.eqb_spec u cell) as [->|Hne].
            - destruct (Z.leb_spec 1 (Z.of_nat k)) as [H1|H1]; cbn [andb] in Ex; [|rewrite Ex, Z.add_0_r; reflexivity]. destruct (Z.of_nat k =? when); cbn [andb] in Ex; [|rewrite Ex, Z.add_0_r; reflexivity].
              rewrite Ex, (Ez ltac:(lia) Hb). reflexivity.
            - rewrite andb_false_r in Ex. rewrite Ex, Z.add_0_r. reflexivity. }
          assert (Ev' : cell_value P v = cell_value P0 v) by (destruct (IH v Hv) as [-> _]; destruct (Z.eqb_spec v cell) as [->|]; [congruence|rewrite andb_false_r; lia]).
          rewrite (Ecv v Hv), Ev'. unfold received. rewrite (zsum_ext (fun u => if beside rows cols u v && (4 <=? cell_value P u) then 1 else 0) (fun u => if beside rows cols u v && (4 <=? cell_value P0 u) then 1 else 0)); [reflexivity|].
          intros u Hu. apply in_zrange in Hu. rewrite Ecv by lia. reflexivity. }
        rewrite Eq. unfold drop. replace (Z.of_nat (Datatypes.S k)) with (Z.of_nat k + 1) by lia. destruct (Z.eqb_spec (Z.of_nat k + 1) 0); [lia|]. cbn [andb]. destruct (Z.leb_spec 1 (Z.of_nat k + 1)); [|lia]. cbn [andb]. split; [lia|].
        intros _ Hbv. unfold sand_next. rewrite Hbv. reflexivity. }
    intros k S S0 E E0 v Hv Hno. rewrite (cv_get _ _ _ _ _ _ _ _ Hp Hh _ _ E v Hv), (cv_get _ _ _ _ _ _ _ _ Hp Hh0 _ _ E0 v Hv). f_equal. destruct (Hk k S S0 E E0 v Hv) as [-> _].
    destruct (Z.leb_spec 1 (Z.of_nat k)), (Z.eqb_spec (Z.of_nat k) when), (Z.eqb_spec v cell); cbn [andb]; try lia.
  Qed.

  Lemma zsum_zero (l : list Z) : zsum (map (fun _ => 0) l) = 0.
  Proof. induction l as [|x l IH]; [reflexivity|cbn [map]; rewrite zsum_cons, IH; reflexivity]. Qed.
  Lemma one_cell (c : Z) l : NoDup l -> zsum (map (fun v => if v =? c then 1 else 0) l) <= 1.
  Proof.
    induction 1 as [|x l Hx Hnd IH]; [cbn; lia|]. cbn [map]. rewrite zsum_cons. destruct (Z.eqb_spec x c) as [->|]; [|lia].
    rewrite (zsum_ext _ (fun _ => 0)); [rewrite zsum_zero; lia|]. intros u Hu. destruct (Z.eqb_spec u c) as [->|]; [contradiction|reflexivity].
  Qed.

  (** a closed pile comes to rest: a number computed from the initial grains bounds when *)
  Theorem C120_settles : forall rows cols init when cell T hs, pile rows cols init -> Forall (fun x => 0 <= x) init -> live true rows cols cell -> 1 <= when ->
    demo_history true rows cols init when cell T hs ->
    forall k S, when + 2 + rows * rows * (zsum init + 1 + 4 * (rows * cols)) <= Z.of_nat k -> nth_error hs k = Some S -> stable rows cols (cell_value S).
  Proof.
    intros rows cols init when cell T hs Hp Hn0 Hc Hw Hh k S Hk ES. pose proof Hp as (Hr & Hcl & Hn & Hl).
    assert (Hinv : forall j X, nth_error hs j = Some X -> nonneg rows cols (cell_value X) /\ grains rows cols (cell_value X) <= zsum init + (if (1 <=? when) && (when <=? Z.of_nat j) then 1 else 0)).
    { induction j as [|j IH]; intros X EX.
      - assert (Es : forall v, 0 <= v < rows * cols -> cell_value X v = start init v) by (apply (cv_start _ _ _ _ _ _ _ _ Hp Hh X EX)). split.
        + intros v Hv. rewrite (Es v Hv). unfold start. rewrite Forall_forall in Hn0. apply Hn0, nth_In. lia.
        + destruct (Z.leb_spec when (Z.of_nat 0)); [lia|]. rewrite andb_false_r, Z.add_0_r. unfold grains. rewrite (zsum_ext (cell_value X) (start init)) by (intros u Hu; apply in_zrange in Hu; apply Es; lia).
          apply Z.eq_le_incl. f_equal. apply (nth_ext _ _ 0 0); [rewrite map_length, length_zrange; lia|]. intros i Hi. rewrite map_length, length_zrange in Hi. rewrite (nth_indep _ 0 (start init 0)) by (rewrite map_length, length_zrange; lia). rewrite map_nth. unfold start. f_equal.
          assert (Ei : nth_error (zrange 0 (rows * cols)) i = Some (0 + Z.of_nat i)) by (apply nth_error_zrange; lia). rewrite (nth_error_nth _ _ 0 Ei). lia.
      - destruct (previous _ _ _ EX) as [P EP]. destruct (IH P EP) as [Hnn Hg]. pose proof (cv_step _ _ _ _ _ _ _ _ Hp Hh _ _ _ EP EX) as Hs. split.
        + intros v Hv. rewrite (Hs v Hv). pose proof (next_nonneg true rows cols _ Hnn v Hv). unfold drop. destruct ((Z.of_nat j + 1 =? when) && (v =? cell)); lia.
        + assert (Eg : grains rows cols (cell_value X) = grains rows cols (sand_next true rows cols (cell_value P)) + zsum (map (drop when cell (Z.of_nat j + 1)) (zrange 0 (rows * cols)))).
          { unfold grains. rewrite <- zsum_plus. apply zsum_ext. intros v Hv. apply in_zrange in Hv. apply Hs. lia. }
          pose proof (closed_nonincreasing true rows cols _ Hr Hcl Hnn) as Hcn.
          assert (Hd : zsum (map (drop when cell (Z.of_nat j + 1)) (zrange 0 (rows * cols))) <= (if Z.of_nat j + 1 =? when then 1 else 0)).
          { unfold drop. destruct (Z.of_nat j + 1 =? when); cbn [andb]; [apply one_cell, NoDup_zrange|]. rewrite zsum_zero. lia. }
          rewrite Eg. destruct (Z.leb_spec 1 when); [|lia]. cbn [andb] in *. destruct (Z.leb_spec when (Z.of_nat j)), (Z.leb_spec when (Z.of_nat (Datatypes.S j))), (Z.eqb_spec (Z.of_nat j + 1) when); lia. }
    assert (Hlt : (k < length hs)%nat) by (apply nth_error_Some; congruence). assert (Hz0 : 0 <= zsum init) by (clear - Hn0; induction Hn0; [cbn; lia|rewrite zsum_cons; lia]).
    assert (Hpos : 0 <= rows * rows * (zsum init + 1 + 4 * (rows * cols))) by (apply Z.mul_nonneg_nonneg; nia).
    set (k0 := Z.to_nat when). assert (Hk0 : Z.of_nat k0 = when) by (unfold k0; lia). clearbody k0. destruct (nth_error hs k0) as [S0|] eqn:E0; [|apply nth_error_None in E0; lia]. destruct (nth_error hs (Datatypes.S k0)) as [S1|] eqn:E1; [|apply nth_error_None in E1; lia].
    destruct (Hinv k0 S0 E0) as [Hnn0 Hg0]. assert (Hst01 : step rows cols true (cell_value S0) (cell_value S1)).
    { rewrite <- (sg_nth _ _ _ E0), <- (sg_nth _ _ _ E1). eapply later_step; try eassumption; [lia|]. apply nth_error_Some. congruence. }
    destruct (settles rows cols Hr Hcl (map cell_value (skipn k0 hs)) (cell_value S0)) as (_ & Hset).
    - rewrite nth_error_map. rewrite nth_error_skipn. rewrite Nat.add_0_r, E0. reflexivity.
    - exact Hnn0.
    - intros i s s' Ei Ei'. rewrite nth_error_map, nth_error_skipn in Ei, Ei'. rewrite Nat.add_succ_r in Ei'. destruct (nth_error hs (k0 + i)) as [X|] eqn:EX; [|discriminate]. destruct (nth_error hs (Datatypes.S (k0 + i))) as [X'|] eqn:EX'; [|discriminate].
      cbn in Ei, Ei'. injection Ei as <-. injection Ei' as <-. rewrite <- (sg_nth _ _ _ EX), <- (sg_nth _ _ _ EX'). eapply later_step; try eassumption; [lia|]. apply nth_error_Some. congruence.
    - destruct (Hset (cell_value S1)) with (j := (k - k0 - 1)%nat) (s := cell_value S) as [_ Ht].
      + rewrite nth_error_map, nth_error_skipn, Nat.add_1_r, E1. reflexivity.
      + rewrite nth_error_map, nth_error_skipn. replace (k0 + Datatypes.S (k - k0 - 1))%nat with k by lia. rewrite ES. reflexivity.
      + unfold stable. rewrite <- toppling_zero. destruct Ht as [Ht|Ht]; [exact Ht|]. exfalso. pose proof (pot_first rows cols Hr Hcl _ _ Hnn0 Hst01) as Hpf. pose proof (pot_nonneg rows cols Hr Hcl _ (proj1 (Hinv _ _ ES))) as Hpn.
        assert (Hsb : settle_bound rows cols (cell_value S0) <= rows * rows * (zsum init + 1 + 4 * (rows * cols))).
        { unfold settle_bound. transitivity (zsum (map (fun v => rows * rows * (cell_value S0 v + 4)) (zrange 0 (rows * cols)))).
          - apply zsum_le. intros v Hv. apply in_zrange in Hv. specialize (Hnn0 v ltac:(lia)). destruct (cell_surj rows cols v Hcl ltac:(lia)) as (_ & Ha & _). apply Z.mul_le_mono_nonneg_r; [lia|]. apply Z.mul_le_mono_nonneg; lia.
          - rewrite zsum_mul. apply Z.mul_le_mono_nonneg_l; [nia|]. rewrite zsum_plus. assert (E4 : forall l : list Z, zsum (map (fun _ => 4) l) = 4 * Z.of_nat (length l)) by (induction l as [|x l IH]; [reflexivity|cbn [map length]; rewrite zsum_cons, IH; lia]). rewrite E4, length_zrange. unfold grains in Hg0.
            change (map (fun x => cell_value S0 x)) with (map (cell_value S0)). destruct (_ && _) in Hg0; lia. }
        lia.
  Qed.

  (** with 4 grains on every cell, one of the random draws of the script, an n x n pile is not at rest in any of the T states if T is small compared to n squared *)
  Theorem C120_moving : forall n when cell T hs, 3 <= n -> live true n n cell -> demo_history true n n (repeat 4 (Z.to_nat (n * n))) when cell T hs -> 16 * (T - 2) + 2 < (n - 1) * (n - 1) ->
    forall S, In S hs -> ~ stable n n (cell_value S).
  Proof.
    intros n when cell T hs Hn Hc Hh HT S HS Hst. apply In_nth_error in HS. destruct HS as [k ES]. set (init := repeat 4 (Z.to_nat (n * n))) in *.
    assert (Hp : pile n n init) by (unfold pile, init; rewrite repeat_length; nia).
    assert (Es : forall v, 0 <= v < n * n -> start init v = 4) by (intros v Hv; unfold start, init; rewrite (nth_indep _ 0 4) by (rewrite repeat_length; lia); apply nth_repeat).
    destruct (C120_script _ _ _ _ _ _ _ _ Hp Hh) as (Hlen & _ & _). assert (Hlt : (k < length hs)%nat) by (apply nth_error_Some; congruence).
    destruct k as [|k]; [specialize (Hst 0 ltac:(nia)); rewrite (cv_start _ _ _ _ _ _ _ _ Hp Hh S ES 0 ltac:(nia)), (Es 0 ltac:(nia)) in Hst; lia|].
    destruct (reach _ _ _ _ _ _ _ _ Hp Hh Hc k S ES) as (l & Hl & Htm).
    assert (H4 : forall v, live true n n v -> 4 <= sand_next true n n (start init) v).
    { intros v [Hv Ev]. unfold sand_next. unfold edge in Ev. rewrite Ev. rewrite (Es v Hv). cbn [andb Z.leb Z.compare Pos.compare Pos.compare_cont]. change (4 <=? 4) with true. cbv iota.
      assert (Er : received n n (start init) v = 4); [|lia]. unfold received. rewrite (zsum_ext _ (fun u => ind (beside n n u v) * 1)).
      - rewrite (four_beside n Hn (fun _ => 1) v Hv Ev). reflexivity.
      - intros u Hu. apply in_zrange in Hu. rewrite (Es u) by lia. unfold ind. change (4 <=? 4) with true. rewrite andb_true_r. destruct (beside n n u v); reflexivity. }
    pose proof (slow n Hn (base true n n init when cell (Datatypes.S k)) l (cell_value S)) as Hsl. specialize (Htm ((n - 1) / 2 * n + (n - 1) / 2)).
    assert (16 * times l ((n - 1) / 2 * n + (n - 1) / 2) + 2 >= (n - 1) * (n - 1)); [|lia]. apply Z.le_ge, Hsl; [|apply (base_edge true n n init when cell Hc)|exact Hl|exact Hst].
    intros v Hv. specialize (H4 v Hv). unfold base. destruct (_ && _); [|exact H4]. unfold plus_grain. destruct (v =? cell); lia.
  Qed.
End Demo.

(** the script's own numbers: 60 x 60 cells, the grain on cell 1034 at timestep 85, 110 timesteps; if every random number is 4, no state of the trajectory is at rest *)
Theorem C120_script_moving : forall {U I BA BN : Type} (W : env Z Z Z BA BN), (forall i, e_lab W i = Z.of_nat i) -> U ->
  (exists hs, demo_history (U := U) (I := I) W true 60 60 (repeat 4 (Z.to_nat (60 * 60))) 85 1034 110 hs) /\
  forall hs, demo_history (U := U) (I := I) W true 60 60 (repeat 4 (Z.to_nat (60 * 60))) 85 1034 110 hs -> length hs = 110%nat /\ forall S, In S hs -> exists v, 0 <= v < 3600 /\ 4 <= cell_value S v.
Proof.
  intros U I BA BN W Hlab u0. assert (Hp : pile 60 60 (repeat 4 (Z.to_nat (60 * 60)))) by (unfold pile; rewrite repeat_length, Z2Nat.id by lia; lia). split; [apply C120_runs; [exact Hlab|exact Hp|lia|exact u0]|].
  intros hs Hh. split; [destruct (C120_script W Hlab _ _ _ _ _ _ _ _ Hp Hh) as (Hl & _); lia|]. intros S HS.
  assert (Hno : ~ stable 60 60 (cell_value S)).
  { apply (C120_moving (U := U) (I := I) W Hlab 60 85 1034 110 hs); [lia|split; [lia|vm_compute; reflexivity]|exact Hh|lia|exact HS]. }
  destruct (existsb (fun v => 4 <=? cell_value S v) (zrange 0 3600)) eqn:E.
  - apply existsb_exists in E. destruct E as (v & Hv & H4). apply in_zrange in Hv. apply Z.leb_le in H4. exists v. split; [lia|exact H4].
  - exfalso. apply Hno. intros v Hv. destruct (Z_lt_le_dec (cell_value S v) 4) as [|H4]; [assumption|]. assert (Hx : existsb (fun v => 4 <=? cell_value S v) (zrange 0 3600) = true); [|congruence].
    apply existsb_exists. exists v. split; [apply in_zrange; lia|apply Z.leb_le; exact H4].
Qed.
Print Assumptions C120_script_moving.
Print Assumptions C120_runs.
Print Assumptions C120_script.
Print Assumptions C120_rest.
Print Assumptions C120_drop_time.
Print Assumptions C120_edge_drop.
Print Assumptions C120_settles.
Print Assumptions C120_moving.

(** ** Examples *)
Definition demo_shown rows cols closed init when cell T : res (list (option (list Z))) :=
  tr <- sandpile_demo (I := Z) W0 (Z.to_nat T) tt rows cols closed init when cell T ;;
  rmap (fun s => a <- activities W0 s ;; Ok (option_map (fun S => map (cell_value S) (zrange 0 (rows * cols))) a)) tr.

Definition grid45 := [1; 0; 4; 0; 0;  0; 3; 3; 3; 0;  4; 3; 2; 3; 1;  0; 0; 0; 2; 0].
(** the grain on cell 7 in timestep 1 and in timestep 3: different on the way, equal in the end *)
Example C120_drop_time_nonvacuous : pile 4 5 grid45 /\ live true 4 5 7 /\ Forall (fun x => 0 <= x) grid45 /\
  demo_shown 4 5 true grid45 1 7 8 = Ok (map Some
    [[1; 0; 4; 0; 0; 0; 3; 3; 3; 0; 4; 3; 2; 3; 1; 0; 0; 0; 2; 0]; [0; 0; 0; 0; 0; 0; 3; 5; 3; 0; 0; 4; 2; 3; 0; 0; 0; 0; 0; 0];
     [0; 0; 0; 0; 0; 0; 5; 1; 4; 0; 0; 0; 4; 3; 0; 0; 0; 0; 0; 0]; [0; 0; 0; 0; 0; 0; 1; 4; 0; 0; 0; 2; 0; 5; 0; 0; 0; 0; 0; 0];
     [0; 0; 0; 0; 0; 0; 2; 0; 2; 0; 0; 2; 2; 1; 0; 0; 0; 0; 0; 0]; [0; 0; 0; 0; 0; 0; 2; 0; 2; 0; 0; 2; 2; 1; 0; 0; 0; 0; 0; 0];
     [0; 0; 0; 0; 0; 0; 2; 0; 2; 0; 0; 2; 2; 1; 0; 0; 0; 0; 0; 0]; [0; 0; 0; 0; 0; 0; 2; 0; 2; 0; 0; 2; 2; 1; 0; 0; 0; 0; 0; 0]]) /\
  exists a, demo_shown 4 5 true grid45 3 7 9 = Ok a /\ nth 1 a None <> Some [0; 0; 0; 0; 0; 0; 3; 5; 3; 0; 0; 4; 2; 3; 0; 0; 0; 0; 0; 0] /\ nth 8 a None = Some [0; 0; 0; 0; 0; 0; 2; 0; 2; 0; 0; 2; 2; 1; 0; 0; 0; 0; 0; 0].
Proof.
  split; [unfold pile; cbn; lia|]. split; [split; [lia|reflexivity]|]. split; [repeat (constructor; [lia|]); constructor|]. split; [vm_compute; reflexivity|].
  eexists. split; [vm_compute; reflexivity|]. split; [discriminate|reflexivity].
Qed.

(** the grains of that first state brought to rest in two orders *)
Lemma stable_check rows cols s : forallb (fun v => s v <? 4) (zrange 0 (rows * cols)) = true -> stable rows cols s.
Proof. intros Hf v Hv. rewrite forallb_forall in Hf. apply Z.ltb_lt, Hf, in_zrange. lia. Qed.
Example C120_abelian_nonvacuous : let s := plus_grain 7 (sand_next true 4 5 (start grid45)) in edge_empty true 4 5 s /\
  exists s1 s2, topples true 4 5 s [7; 11; 6; 8; 12; 13; 7] s1 /\ topples true 4 5 s [11; 6; 7; 12; 13; 8; 7] s2 /\ stable 4 5 s1 /\ stable 4 5 s2.
Proof.
  cbv zeta. split; [apply plus_grain_edge; [split; [lia|reflexivity]|apply next_edge]|]. eexists _, _.
  split; [repeat (apply tp_go; [split; [lia|reflexivity]|vm_compute; discriminate|]); apply tp_stop; intros w _; reflexivity|].
  split; [repeat (apply tp_go; [split; [lia|reflexivity]|vm_compute; discriminate|]); apply tp_stop; intros w _; reflexivity|].
  split; apply stable_check; vm_compute; reflexivity.
Qed.

(** periodic boundaries: the pile with a dropped grain comes to rest too *)
Example C120_periodic_nonvacuous : pile 3 3 grid33 /\ live false 3 3 4 /\
  demo_shown 3 3 false grid33 2 4 4 = Ok (map Some [[0; 5; 0; 4; 7; 2; 1; 0; 0]; [2; 2; 1; 1; 5; 4; 2; 2; 0]; [2; 3; 2; 3; 3; 1; 2; 3; 1]; [2; 3; 2; 3; 3; 1; 2; 3; 1]]).
Proof. split; [unfold pile; cbn; lia|]. split; [split; [lia|reflexivity]|]. vm_compute. reflexivity. Qed.

(** a grain dropped on the border cell 3 in timestep 2 *)
Example C120_edge_nonvacuous : border 4 5 3 = true /\ 0 <= 3 < 4 * 5 /\ exists a, demo_shown 4 5 true grid45 2 3 4 = Ok a /\
  nth 2 a None = Some [0; 0; 0; 1; 0; 0; 5; 0; 4; 0; 0; 0; 4; 3; 0; 0; 0; 0; 0; 0] /\ nth 3 a None = Some [0; 0; 0; 0; 0; 0; 1; 3; 0; 0; 0; 2; 0; 5; 0; 0; 0; 0; 0; 0].
Proof. split; [reflexivity|]. split; [lia|]. eexists. split; [vm_compute; reflexivity|]. vm_compute. split; reflexivity. Qed.
