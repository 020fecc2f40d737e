(** Runs of Wolfram.v through evolve, with an invariant of the configurations. *)
From Coq Require Import Permutation.
From Verif Require Import Py PyFacts ListFacts Network NetworkSpec NetworkProofs Evolve EvolveProofs WolframSpec Wolfram WolframProofs WolframProofs2 WolframProofs3.
Open Scope Z_scope.

Lemma fold_max_perm l l' : Permutation l l' -> forall d, fold_left Z.max l d = fold_left Z.max l' d.
Proof. induction 1 as [|x l l' _ IH|x y l|l1 l2 l3 _ IH1 _ IH2]; intros d; cbn [fold_left]; [reflexivity|apply IH|f_equal; lia|rewrite IH1; apply IH2]. Qed.

Lemma concat_perm {X} (l l' : list (list X)) : Permutation l l' -> Permutation (concat l) (concat l').
Proof.
  induction 1 as [|x l l' _ IH|x y l|l1 l2 l3 _ IH1 _ IH2]; cbn [concat]; [constructor|apply Permutation_app_head; assumption| |etransitivity; eassumption].
  rewrite !app_assoc. apply Permutation_app_tail, Permutation_app_comm.
Qed.

Section Invariant.
  Context {S : Type} `{EqD S} (rin rout : list (list S)) (P : nat -> config -> Prop) (size : nat -> nat).
  Hypothesis P_perm : forall k c c', Permutation c c' -> P k c -> P k c'.
  Hypothesis P_ok : forall k c, P k c -> c <> [] /\ Forall (fun r => nonempty r = true) c /\ (length c <= size k)%nat.
  Hypothesis P_step : forall k c fuel, P k c -> (length c < fuel)%nat -> exists new, rewrite_config fuel rin rout (fold_left Z.max (concat c) 0) c = Ok new /\ P (Datatypes.S k) new.

  Context {A BA BN I : Type} `{EqD A} (W : env Z aval A BA BN).
  Notation shows st cf := (exists nt, state_network W st = Ok (Some nt) /\ network_to_config nt = Ok cf).

  Lemma built_P k cfg net last old : built cfg net last old -> P k cfg -> P k old /\ last = fold_left Z.max (concat old) 0 /\ Permutation old cfg /\ net_nodes net <> [].
  Proof.
    intros Hb Hp. pose proof Hb as (B1 & B2 & B3 & B4 & B5). destruct (P_ok _ _ Hp) as (Hne & Hall & _). rewrite (filter_id _ _ Hall) in B5. split; [eapply P_perm; [symmetry; exact B5|assumption]|].
    split; [rewrite B3; apply fold_max_perm, concat_perm; symmetry; assumption|]. split; [assumption|].
    eapply built_nodes; [exact Hb|]. intros ->. apply Permutation_nil in B5. contradiction.
  Qed.

  Definition rewritten (fuel : nat) (c c' : config) : Prop := exists new, rewrite_config fuel rin rout (fold_left Z.max (concat c) 0) c = Ok new /\ Permutation c' new.

  Lemma inv_step {B} k fuel cfg net last old (ctx : topo_ctx Z aval B) : built cfg net last old -> t_net ctx = net -> P k cfg -> (size k < fuel)%nat ->
    exists cfg' net' last' old', built cfg' net' last' old' /\ wolfram_rule fuel rin rout (mkModel net last) ctx = Ok (mkModel net' last', Some net') /\ P (Datatypes.S k) cfg' /\ rewritten fuel old old'.
  Proof.
    intros Hb Ec Hp Hf. destruct (built_P _ _ _ _ _ Hb Hp) as (Ho & El & Hlen & _). destruct (P_ok _ _ Ho) as (_ & _ & Hsz). pose proof (Permutation_length Hlen) as Hlen'. destruct (P_step k old fuel Ho ltac:(lia)) as (new & En & Hn). destruct (init_built new) as (net' & last' & old' & Hb').
    exists new, net', last', old'. split; [assumption|]. split; [|split; [assumption|exists new; split; [assumption|apply (built_P _ _ _ _ _ Hb' Hn)]]]. unfold wolfram_rule. destruct Hb as (_ & _ & _ & B4 & _). rewrite Ec, B4. cbn [rbind m_last]. rewrite El, En. cbn [rbind]. destruct Hb' as (-> & _). reflexivity.
  Qed.

  Lemma inv_evolve_step k fuel (g : args (I := I)) mk t inp c cfg net last old : wolfram_args rin rout fuel g -> built cfg net last old -> P k cfg -> (size k < fuel)%nat -> c_net c = net -> c_u c = mkModel net last ->
    exists cfg' net' last' old' c', built cfg' net' last' old' /\ step W g mk t inp c = Ok c' /\ c_net c' = net' /\ c_u c' = mkModel net' last' /\ c_traj c' = c_traj c ++ [mkState None (Some (Raw net'))] /\ P (Datatypes.S k) cfg' /\ rewritten fuel old old'.
  Proof.
    intros (G1 & G2 & G3 & G4 & G5) Hb Hp Hfuel En Eu.
    assert (Hstep : forall a, exists cfg' net' last' old', built cfg' net' last' old' /\ evolve_topology W g t (c_u c) a (c_net c) [] [] = Ok (mkModel net' last', net') /\ record_network W g net' = Ok (Some (Raw net')) /\ P (Datatypes.S k) cfg' /\ rewritten fuel old old').
    { intros a. destruct (inv_step k fuel cfg net last old (mkTopo net a t) Hb eq_refl Hp Hfuel) as (cfg' & net' & last' & old' & Hb' & Er & R1 & R2). exists cfg', net', last', old'.
      destruct (built_P _ _ _ _ _ Hb' R1) as (_ & _ & _ & Hnn). split; [assumption|]. split; [|split; [|split; assumption]].
      - unfold evolve_topology. cbn [rbind]. rewrite G2, En, Eu, (copy_built _ _ _ _ Hb). replace (if g_copy g then net else net) with net by (destruct (g_copy g); reflexivity). rewrite Er. cbn [rbind]. destruct (net_nodes net'); [contradiction|reflexivity].
      - unfold record_network, set_network. rewrite G5, G4. destruct (net_nodes net'); [contradiction|reflexivity]. }
    assert (Ea : record_activities W g [] = Ok None) by (unfold record_activities; destruct (g_pact g); reflexivity).
    unfold step, get_past. rewrite G3. cbn [rbind]. unfold evolve_activities. rewrite G1. cbn [rbind]. destruct (g_order g); cbn [s_curr s_u s_added s_removed s_tab rbind].
    - rewrite Ea. cbn [rbind]. destruct (Hstep []) as (cfg' & net' & last' & old' & Hb' & E1 & E2 & R). rewrite E1. cbn [rbind]. rewrite E2. cbn [rbind]. exists cfg', net', last', old'. eexists. split; [assumption|]. split; [reflexivity|]. cbn. auto.
    - destruct (Hstep (c_act c)) as (cfg' & net' & last' & old' & Hb' & E1 & E2 & R). rewrite E1. cbn [rbind]. rewrite E2. cbn [rbind s_curr]. rewrite Ea. cbn [rbind]. exists cfg', net', last', old'. eexists. split; [assumption|]. split; [reflexivity|]. cbn. auto.
    - destruct (Hstep (c_act c)) as (cfg' & net' & last' & old' & Hb' & E1 & E2 & R). rewrite E1. cbn [rbind]. rewrite E2. cbn [rbind s_curr]. rewrite Ea. cbn [rbind]. exists cfg', net', last', old'. eexists. split; [assumption|]. split; [reflexivity|]. cbn. auto.
  Qed.

  Lemma inv_loop fuel (g : args (I := I)) mk T : wolfram_args rin rout fuel g -> forall n k t c cfg net last old f, built cfg net last old -> P k cfg -> (forall i, (i <= k + n)%nat -> (size i < fuel)%nat) ->
    c_net c = net -> c_u c = mkModel net last -> t + Z.of_nat n = T -> (n < f)%nat ->
    exists c' new configs, loop W g mk (timestep_input T) f t c = Ok c' /\ c_traj c' = c_traj c ++ new /\ length configs = n /\ Forall2 (fun st cf => shows st cf) new configs /\ (forall i cf, nth_error configs i = Some cf -> P (k + 1 + i) cf) /\
      (forall i cf cf', nth_error (old :: configs) i = Some cf -> nth_error configs i = Some cf' -> rewritten fuel cf cf').
  Proof.
    intros Hg. induction n as [|n IH]; intros k t c cfg net last old f Hb Hp Hfuel En Eu Et Hf; (destruct f as [|f]; [lia|]); cbn [loop]; unfold timestep_input at 1.
    - destruct (Z.eqb_spec t T); [|lia]. cbn [rbind]. eexists. exists [], []. split; [reflexivity|]. cbn. rewrite app_nil_r. split; [reflexivity|]. split; [reflexivity|]. split; [constructor|]. split; [intros [|i] cf E; discriminate|intros [|i] cf cf' _ E; discriminate].
    - destruct (Z.eqb_spec t T); [lia|]. cbn [rbind].
      destruct (inv_evolve_step k fuel g mk t (InStr "__timestep__") (with_u c (c_u c)) cfg net last old Hg Hb Hp) as (cfg' & net' & last' & old' & c' & Hb' & Es & E1 & E2 & E3 & R1 & R2); try assumption; [apply Hfuel; lia|].
      rewrite Es. cbn [rbind]. destruct (IH (Datatypes.S k) (t + 1) c' cfg' net' last' old' f Hb' R1) as (c2 & new & configs & L1 & L2 & L3 & L4 & L5 & L6); try assumption; try lia; [intros i Hi; apply Hfuel; lia|].
      exists c2, (mkState None (Some (Raw net')) :: new), (old' :: configs). split; [assumption|]. split; [rewrite L2, E3, <- app_assoc; reflexivity|]. split; [cbn; lia|]. split; [|split].
      + constructor; [|assumption]. exists net'. split; [reflexivity|]. apply Hb'.
      + intros [|i] cf E; cbn [nth_error] in E.
        * injection E as <-. replace (k + 1 + 0)%nat with (Datatypes.S k) by lia. exact (proj1 (built_P _ _ _ _ _ Hb' R1)).
        * replace (k + 1 + Datatypes.S i)%nat with (Datatypes.S k + 1 + i)%nat by lia. apply L5. assumption.
      + intros [|i] cf cf' E E'; cbn [nth_error] in E, E'; [injection E as <-; injection E' as <-; assumption|exact (L6 i cf cf' E E')].
  Qed.

  Theorem inv_run k cfg T : P k cfg -> 1 <= T ->
    exists m, model_init cfg = Ok m /\ forall fuel (g : args (I := I)) f, (forall i, (i <= k + Z.to_nat T)%nat -> (size i < fuel)%nat) -> wolfram_args rin rout fuel g -> T <= Z.of_nat f ->
      exists uf traj configs, evolve W f m (m_net m) None (Some T) None g = Ok (uf, traj) /\
        Forall2 (fun st cf => shows st cf) traj configs /\ Z.of_nat (length configs) = T /\ (forall i cf, nth_error configs i = Some cf -> P (k + i) cf) /\
        (forall i cf cf', nth_error configs i = Some cf -> nth_error configs (Datatypes.S i) = Some cf' -> rewritten fuel cf cf').
  Proof.
    intros Hp HT. destruct (init_built cfg) as (net & last & old & Hb). exists (mkModel net last). split; [unfold model_init; destruct Hb as (-> & _); reflexivity|]. intros fuel g f Hfuel Hg Hf.
    destruct (built_P _ _ _ _ _ Hb Hp) as (Ho & _ & _ & Hnn). pose proof Hb as (B1 & B2 & B3 & B4 & B5).
    unfold evolve. cbn [get_input_function rbind m_net]. replace (match g_rule g with Some _ => true | None => false end) with false by (destruct Hg as (-> & _); reflexivity). rewrite andb_false_r. cbn [set_activities rbind].
    destruct Hg as (G1 & G2 & G3 & G4 & G5). assert (Hg : wolfram_args rin rout fuel g) by (unfold wolfram_args; auto). rewrite G4. unfold set_network. destruct (net_nodes net) as [|x ns] eqn:Ens; [contradiction|]. cbn [rbind]. clear Hnn.
    destruct (inv_loop fuel g (match g_key g with Some k => k | None => default_key net end) T Hg (Z.to_nat (T - 1)) k 1
      (mkCfg (mkModel net last) [] net [] (match g_topo g with Some _ => None | None => Some (get_neighbourhood_map net) end) [mkState None (Some (Raw net))]) cfg net last old f Hb Hp) as (c' & new & configs & L1 & L2 & L3 & L4 & L5 & L6).
    - intros i Hi. apply Hfuel. lia.
    - reflexivity.
    - reflexivity.
    - lia.
    - lia.
    - rewrite G2 in L1 |- *. rewrite L1. cbn [rbind]. exists (c_u c'), (c_traj c'), (old :: configs). split; [reflexivity|]. rewrite L2. split; [constructor; [exists net; auto|assumption]|]. split; [cbn [length]; lia|]. split; [|exact L6].
      intros [|i] cf E; cbn [nth_error] in E; [injection E as <-; rewrite Nat.add_0_r; assumption|]. replace (k + Datatypes.S i)%nat with (k + 1 + i)%nat by lia. apply L5. assumption.
  Qed.
End Invariant.
