(** Runs of Wolfram.v through evolve. *)
From Coq Require Import Permutation.
From Verif Require Import Py PyFacts ListFacts Network NetworkSpec NetworkProofs Evolve EvolveProofs WolframSpec Wolfram WolframProofs WolframProofs2.
Open Scope Z_scope.

Lemma fold_max_ge l : forall d x, x = d \/ In x l -> x <= fold_left Z.max l d.
Proof.
  induction l as [|y l IH]; intros d x Hx; cbn; [destruct Hx as [->|[]]; lia|]. destruct Hx as [->|[->|Hx]]; [|specialize (IH (Z.max d x) (Z.max d x) (or_introl eq_refl)); lia|apply IH; right; assumption].
  specialize (IH (Z.max d y) (Z.max d y) (or_introl eq_refl)). lia.
Qed.
Lemma fold_max_in l : forall d, fold_left Z.max l d = d \/ In (fold_left Z.max l d) l.
Proof.
  induction l as [|y l IH]; intros d; cbn; [auto|]. destruct (IH (Z.max d y)) as [E|Hin]; [|auto]. rewrite E. destruct (Z.max_spec d y) as [[_ ->]|[_ ->]]; auto.
Qed.

Lemma filter_id {X} (p : X -> bool) l : Forall (fun x => p x = true) l -> filter p l = l.
Proof. induction 1 as [|x l Hx _ IH]; [reflexivity|]. cbn. rewrite Hx, IH. reflexivity. Qed.

(** what is known of a network built from a configuration *)
Definition built (cfg : config) (net : wnet) (last : Z) (old : config) : Prop :=
  init_network_and_conditions cfg = Ok (net, last) /\ net_rot net = None /\ last = fold_left Z.max (concat cfg) 0 /\ network_to_config net = Ok old /\ Permutation old (filter nonempty cfg).

Lemma init_built cfg : exists net last old, built cfg net last old.
Proof.
  destruct (round_trip cfg) as (net & last & old & is_ & E1 & E2 & E3 & Hp & _ & Ho). destruct (init_R cfg) as (net2 & g & E4 & _ & Hr & _). rewrite E1 in E4. injection E4 as <- _.
  exists net, last, old. split; [assumption|]. split; [assumption|]. split; [assumption|]. split; [assumption|]. rewrite Ho, (Permutation_map _ Hp). rewrite <- filter_map_comm, map_nth_seq. reflexivity.
Qed.

Lemma built_nodes cfg net last old : built cfg net last old -> old <> [] -> net_nodes net <> [].
Proof.
  intros (_ & _ & _ & E & _) Hne Hn. apply Hne. destruct net as [ns rot]. cbn in Hn. subst ns. cbn in E. injection E as <-. reflexivity.
Qed.

Lemma copy_built cfg net last old : built cfg net last old -> copy net = net.
Proof. intros (_ & Hr & _). destruct net as [ns rot]. cbn in Hr. subst rot. reflexivity. Qed.

Section Runs.
  Context {S : Type} `{EqD S} (rin rout : list (list S)).
  Hypothesis Hin : rin <> [].
  Hypothesis Hout : rout <> [].
  Hypothesis Hpat : Forall (fun p => p <> []) rout.

  Lemma instance_len (f : S -> option Z) p r : instance f p r -> length p = length r.
  Proof. unfold instance. intros E. apply (f_equal (@length _)) in E. rewrite !map_length in E. assumption. Qed.

  Lemma Forall2_in_l {X Y} (P : X -> Y -> Prop) l l' x : Forall2 P l l' -> In x l -> exists y, In y l' /\ P x y.
  Proof. induction 1 as [|a b l l' Hab _ IH]; intros Hx; [destruct Hx|]. destruct Hx as [->|Hx]; [exists b; split; [left; reflexivity|assumption]|]. destruct (IH Hx) as (y & Hy & Hp). exists y. split; [right; assumption|assumption]. Qed.
  Lemma Forall2_in_r {X Y} (P : X -> Y -> Prop) l l' y : Forall2 P l l' -> In y l' -> exists x, In x l /\ P x y.
  Proof. induction 1 as [|a b l l' Hab _ IH]; intros Hx; [destruct Hx|]. destruct Hx as [->|Hx]; [exists a; split; [left; reflexivity|assumption]|]. destruct (IH Hx) as (x & Hy & Hp). exists x. split; [right; assumption|assumption]. Qed.

  Lemma rewritten_nonempty groups rest old new : rewrites rin rout groups rest old new -> Forall (fun r => nonempty r = true) old -> Forall (fun r => nonempty r = true) new.
  Proof.
    intros (H1 & H2 & H3) Hold. rewrite Forall_forall in H3, Hold. apply Forall_forall. intros r Hr. eapply Permutation_in in Hr; [|exact H2]. apply in_app_iff in Hr. destruct Hr as [Hr|Hr].
    - apply in_concat in Hr. destruct Hr as (rhs & Hg & Hr). apply in_map_iff in Hg. destruct Hg as (g & <- & Hg). destruct (H3 g Hg) as (_ & _ & _ & _ & Hf). destruct (Forall2_in_r _ _ _ _ Hf Hr) as (p & Hp & Hi).
      pose proof (Hpat) as Hpat'. rewrite Forall_forall in Hpat'. specialize (Hpat' p Hp). apply instance_len in Hi. destruct p, r; cbn in *; congruence.
    - apply Hold. eapply Permutation_in; [symmetry; exact H1|]. apply in_or_app. right. assumption.
  Qed.

  Lemma concat_lengths {X} (l : list (list X)) n : Forall (fun x => length x = n) l -> length (concat l) = (length l * n)%nat.
  Proof. induction 1 as [|x l Hx _ IH]; [reflexivity|]. cbn. rewrite app_length, IH, Hx. reflexivity. Qed.

  Lemma rewritten_length groups rest old new : rewrites rin rout groups rest old new -> (length old = length groups * length rin + length rest /\ length new = length groups * length rout + length rest)%nat.
  Proof.
    intros (H1 & H2 & H3). rewrite (Permutation_length H1), (Permutation_length H2), !app_length.
    rewrite (concat_lengths (map gr_lhs groups) (length rin)), (concat_lengths (map gr_rhs groups) (length rout)), !map_length; [split; reflexivity| |]; rewrite Forall_map; (eapply Forall_impl; [|exact H3]); cbn; intros g (_ & _ & _ & F1 & F2).
    - symmetry. apply (Forall2_len _ _ _ F2).
    - symmetry. apply (Forall2_len _ _ _ F1).
  Qed.

  Lemma created_in groups rest old new g s n : rewrites rin rout groups rest old new -> In g groups -> creates g s n -> In n (concat new).
  Proof.
    intros (H1 & H2 & H3) Hg [C1 C2]. rewrite Forall_forall in H3. destruct (H3 g Hg) as (G1 & G2 & _ & _ & Hf). assert (Hs : In s (concat rout)).
    { destruct (proj1 (G2 s)) as [Hs|Hs]; [congruence| |assumption]. apply G1 in Hs. congruence. }
    apply in_concat in Hs. destruct Hs as (p & Hp & Hs). destruct (Forall2_in_l _ _ _ _ Hf Hp) as (r & Hr & Hi). apply in_concat. exists r. split.
    - eapply Permutation_in; [symmetry; exact H2|]. apply in_or_app. left. apply in_concat. exists (gr_rhs g). split; [apply in_map; assumption|assumption].
    - unfold instance in Hi. assert (Hx : In (Some n) (map Some r)) by (rewrite <- Hi; apply in_map_iff; exists s; auto). apply in_map_iff in Hx. destruct Hx as (x & Ex & Hx). congruence.
  Qed.

  Lemma in_concat_perm {X} (l l' : list (list X)) x : Permutation l l' -> In x (concat l) -> In x (concat l').
  Proof. intros Hp Hx. apply in_concat in Hx. destruct Hx as (r & Hr & Hx). apply in_concat. exists r. split; [eapply Permutation_in; eassumption|assumption]. Qed.

  Definition creative : Prop := exists s, In s (concat rout) /\ ~ In s (concat rin).
  Definition bounded (hist : list config) (last : Z) : Prop := creative -> forall n, In n (concat (concat hist)) -> n <= last.

  Lemma creates_creative groups rest old new g s n : rewrites rin rout groups rest old new -> In g groups -> creates g s n -> creative.
  Proof.
    intros (_ & _ & H3) Hg [C1 C2]. rewrite Forall_forall in H3. destruct (H3 g Hg) as (G1 & G2 & _). exists s. assert (Hn : ~ In s (concat rin)) by (rewrite <- G1; tauto). split; [|assumption].
    destruct (proj1 (G2 s)) as [Hs|Hs]; [congruence|contradiction|assumption].
  Qed.

  (** one application of the topology rule *)
  Lemma wolfram_step {A} fuel cfg net last old h (ctx : topo_ctx Z aval A) : built cfg net last old -> t_net ctx = net -> Forall (fun r => nonempty r = true) cfg -> cfg <> [] -> (length cfg < fuel)%nat ->
    history rin rout (h ++ [old]) -> bounded (h ++ [old]) last ->
    exists cfg' net' last' old', built cfg' net' last' old' /\ wolfram_rule fuel rin rout (mkModel net last) ctx = Ok (mkModel net' last', Some net') /\
      Forall (fun r => nonempty r = true) cfg' /\ cfg' <> [] /\ (length cfg' <= length cfg * (length rout + 1))%nat /\ history rin rout ((h ++ [old]) ++ [old']) /\ bounded ((h ++ [old]) ++ [old']) last'.
  Proof.
    intros (B1 & B2 & B3 & B4 & B5) Ec Hne Hne2 Hfuel Hh Hb. rewrite (filter_id _ _ Hne) in B5.
    assert (Hlen : length old = length cfg) by (apply Permutation_length; assumption).
    destruct (rewrite_terminates fuel rin rout last old Hin) as [new En]; [lia|]. destruct (init_built new) as (net' & last' & old' & Hb').
    destruct (rewrite_sound _ _ _ _ _ _ En) as (groups & rest & Hr & Hfr & Hinj & _).
    assert (Hold : Forall (fun r => nonempty r = true) old) by (rewrite Forall_forall in Hne; apply Forall_forall; intros r Hx; apply Hne; eapply Permutation_in; eassumption).
    pose proof (rewritten_nonempty _ _ _ _ Hr Hold) as Hnew. destruct (rewritten_length _ _ _ _ Hr) as [L1 L2].
    assert (Hro : (1 <= length rout)%nat) by (destruct rout; [congruence|cbn; lia]). assert (Hri : (1 <= length rin)%nat) by (destruct rin; [congruence|cbn; lia]).
    assert (Hco : (1 <= length cfg)%nat) by (destruct cfg; [congruence|cbn; lia]).
    destruct Hb' as (C1 & C2 & C3 & C4 & C5). rewrite (filter_id _ _ Hnew) in C5.
    assert (Hr' : rewrites rin rout groups rest old old') by (destruct Hr as (R1 & R2 & R3); split; [assumption|split; [|assumption]]; rewrite C5; assumption).
    exists new, net', last', old'. split; [split; [assumption|split; [assumption|split; [assumption|split; [assumption|rewrite (filter_id _ _ Hnew); assumption]]]]|].
    split; [unfold wolfram_rule; rewrite Ec, B4; cbn [rbind m_last]; rewrite En; cbn [rbind]; rewrite C1; reflexivity|].
    split; [assumption|]. split; [intros ->; cbn in L2; nia|]. split; [nia|]. split.
    - eapply hist_step; [exact Hh|exact Hr'|]. split; [|exact Hinj]. intros g s n Hg Hc Hn. pose proof (creates_creative _ _ _ _ _ _ _ Hr Hg Hc) as Hcr. specialize (Hb Hcr n Hn). specialize (Hfr g s n Hg Hc). lia.
    - intros Hcr n Hn. rewrite concat_app, concat_app, in_app_iff in Hn. destruct Hn as [Hn|Hn].
      + specialize (Hb Hcr n Hn). assert (Hle : last <= last'); [|lia]. destruct groups as [|g groups].
        * destruct Hr as (R1 & R2 & _). cbn in R1, R2. destruct (fold_max_in (concat cfg) 0) as [E|Hi]; [rewrite B3, E, C3; apply fold_max_ge; auto|]. rewrite <- B3 in Hi. rewrite C3. apply fold_max_ge. right.
          eapply in_concat_perm; [symmetry; exact R2|]. eapply in_concat_perm; [exact R1|]. eapply in_concat_perm; [symmetry; exact B5|]. assumption.
        * destruct Hcr as (s & Hs1 & Hs2). pose proof Hr as (_ & _ & H3). rewrite Forall_forall in H3. destruct (H3 g (or_introl eq_refl)) as (G1 & G2 & _). destruct (gr_out g s) as [m|] eqn:Em; [|exfalso; apply (proj2 (G2 s)); auto].
          assert (Hc : creates g s m) by (split; [destruct (gr_in g s) eqn:Ei; [exfalso; apply Hs2, G1; congruence|reflexivity]|assumption]).
          pose proof (Hfr g s m (or_introl eq_refl) Hc). pose proof (created_in _ _ _ _ _ _ _ Hr (or_introl eq_refl) Hc) as Hi. rewrite C3. pose proof (fold_max_ge (concat new) 0 m (or_intror Hi)). lia.
      + cbn [concat] in Hn. rewrite app_nil_r in Hn. rewrite C3. apply fold_max_ge. right. eapply in_concat_perm; [exact C5|]. assumption.
  Qed.

  Context {A BA BN I : Type} `{EqD A} (W : env Z aval A BA BN).
  Definition wolfram_args (fuel : nat) (g : args (L := Z) (V := aval) (A := A) (U := model) (I := I)) : Prop :=
    g_rule g = None /\ g_topo g = Some (wolfram_rule fuel rin rout) /\ g_past g = [] /\ g_comp g = false /\ g_pnet g = true.

  Lemma wolfram_evolve_step fuel g mk t inp c cfg net last old h : wolfram_args fuel g -> built cfg net last old -> Forall (fun r => nonempty r = true) cfg -> cfg <> [] -> (length cfg < fuel)%nat ->
    history rin rout (h ++ [old]) -> bounded (h ++ [old]) last -> c_net c = net -> c_u c = mkModel net last ->
    exists cfg' net' last' old' c', built cfg' net' last' old' /\ step W g mk t inp c = Ok c' /\ c_net c' = net' /\ c_u c' = mkModel net' last' /\ c_traj c' = c_traj c ++ [mkState None (Some (Raw net'))] /\
      Forall (fun r => nonempty r = true) cfg' /\ cfg' <> [] /\ (length cfg' <= length cfg * (length rout + 1))%nat /\ history rin rout ((h ++ [old]) ++ [old']) /\ bounded ((h ++ [old]) ++ [old']) last'.
  Proof.
    intros (G1 & G2 & G3 & G4 & G5) Hb Hne Hne2 Hfuel Hh Hbd En Eu.
    assert (Hstep : forall a, exists cfg' net' last' old', built cfg' net' last' old' /\ evolve_topology W g t (c_u c) a (c_net c) [] [] = Ok (mkModel net' last', net') /\ record_network W g net' = Ok (Some (Raw net')) /\
      Forall (fun r => nonempty r = true) cfg' /\ cfg' <> [] /\ (length cfg' <= length cfg * (length rout + 1))%nat /\ history rin rout ((h ++ [old]) ++ [old']) /\ bounded ((h ++ [old]) ++ [old']) last').
    { intros a. destruct (wolfram_step fuel cfg net last old h (mkTopo net a t) Hb eq_refl Hne Hne2 Hfuel Hh Hbd) as (cfg' & net' & last' & old' & Hb' & Er & R1 & R2 & R3 & R4 & R5). exists cfg', net', last', old'.
      assert (Hnn : net_nodes net' <> []) by (eapply built_nodes; [exact Hb'|]; destruct Hb' as (_ & _ & _ & _ & Hp); intros ->; rewrite (filter_id _ _ R1) in Hp; apply Permutation_nil in Hp; contradiction).
      split; [assumption|]. split; [|split; [|auto]].
      - unfold evolve_topology. cbn [rbind]. rewrite G2, En, Eu, (copy_built _ _ _ _ Hb). replace (if g_copy g then net else net) with net by (destruct (g_copy g); reflexivity). rewrite Er. cbn [rbind]. destruct (net_nodes net'); [contradiction|reflexivity].
      - unfold record_network, set_network. rewrite G5, G4. destruct (net_nodes net'); [contradiction|reflexivity]. }
    assert (Ea : record_activities W g [] = Ok None) by (unfold record_activities; destruct (g_pact g); reflexivity).
    unfold step, get_past. rewrite G3. cbn [rbind]. unfold evolve_activities. rewrite G1. cbn [rbind]. destruct (g_order g); cbn [s_curr s_u s_added s_removed s_tab rbind].
    - rewrite Ea. cbn [rbind]. destruct (Hstep []) as (cfg' & net' & last' & old' & Hb' & E1 & E2 & R). rewrite E1. cbn [rbind]. rewrite E2. cbn [rbind]. exists cfg', net', last', old'. eexists. split; [assumption|]. split; [reflexivity|]. cbn. auto.
    - destruct (Hstep (c_act c)) as (cfg' & net' & last' & old' & Hb' & E1 & E2 & R). rewrite E1. cbn [rbind]. rewrite E2. cbn [rbind s_curr]. rewrite Ea. cbn [rbind]. exists cfg', net', last', old'. eexists. split; [assumption|]. split; [reflexivity|]. cbn. auto.
    - destruct (Hstep (c_act c)) as (cfg' & net' & last' & old' & Hb' & E1 & E2 & R). rewrite E1. cbn [rbind]. rewrite E2. cbn [rbind s_curr]. rewrite Ea. cbn [rbind]. exists cfg', net', last', old'. eexists. split; [assumption|]. split; [reflexivity|]. cbn. auto.
  Qed.

  Notation shows st cf := (exists nt, state_network W st = Ok (Some nt) /\ network_to_config nt = Ok cf).

  Lemma wolfram_loop fuel g mk T : wolfram_args fuel g -> forall n t c cfg net last old h f, built cfg net last old -> Forall (fun r => nonempty r = true) cfg -> cfg <> [] ->
    (length cfg * (length rout + 1) ^ n < fuel)%nat -> history rin rout (h ++ [old]) -> bounded (h ++ [old]) last -> c_net c = net -> c_u c = mkModel net last -> t + Z.of_nat n = T -> (n < f)%nat ->
    exists c' new configs, loop W g mk (timestep_input T) f t c = Ok c' /\ c_traj c' = c_traj c ++ new /\ length configs = n /\ Forall2 (fun st cf => shows st cf) new configs /\ history rin rout ((h ++ [old]) ++ configs).
  Proof.
    intros Hg. induction n as [|n IH]; intros t c cfg net last old h f Hb Hne Hne2 Hfuel Hh Hbd En Eu Et Hf; (destruct f as [|f]; [lia|]); cbn [loop]; unfold timestep_input at 1.
    - destruct (Z.eqb_spec t T); [|lia]. cbn [rbind]. eexists. exists [], []. split; [reflexivity|]. cbn. rewrite app_nil_r, app_nil_r. split; [reflexivity|]. split; [reflexivity|]. split; [constructor|assumption].
    - destruct (Z.eqb_spec t T); [lia|]. cbn [rbind]. assert (Hpos : (1 <= (length rout + 1) ^ n)%nat) by (clear; induction n as [|n IHn]; cbn [Nat.pow]; nia).
      assert (Hco : (1 <= length cfg)%nat) by (destruct cfg; [congruence|cbn; lia]). rewrite Nat.pow_succ_r' in Hfuel.
      destruct (wolfram_evolve_step fuel g mk t (InStr "__timestep__") (with_u c (c_u c)) cfg net last old h Hg Hb Hne Hne2) as (cfg' & net' & last' & old' & c' & Hb' & Es & E1 & E2 & E3 & R1 & R2 & R3 & R4 & R5); try assumption; [nia|].
      rewrite Es. cbn [rbind]. destruct (IH (t + 1) c' cfg' net' last' old' (h ++ [old]) f Hb' R1 R2) as (c2 & new & configs & L1 & L2 & L3 & L4 & L5); try assumption; try lia; [nia|].
      exists c2, (mkState None (Some (Raw net')) :: new), (old' :: configs). split; [assumption|]. split; [rewrite L2, E3, <- app_assoc; reflexivity|]. split; [cbn; lia|]. split.
      + constructor; [|assumption]. exists net'. split; [reflexivity|]. apply Hb'.
      + replace ((h ++ [old]) ++ old' :: configs) with (((h ++ [old]) ++ [old']) ++ configs) by (rewrite <- (app_assoc (h ++ [old])); reflexivity). assumption.
  Qed.

  Theorem wolfram_run cfg T : Forall (fun r => nonempty r = true) cfg -> cfg <> [] -> 1 <= T ->
    exists m, model_init cfg = Ok m /\ forall fuel g f, (length cfg * (length rout + 1) ^ Z.to_nat T < fuel)%nat -> wolfram_args fuel g -> T <= Z.of_nat f ->
      exists uf traj configs, evolve W f m (m_net m) None (Some T) None g = Ok (uf, traj) /\
        Forall2 (fun st cf => shows st cf) traj configs /\ Z.of_nat (length configs) = T /\ history rin rout configs /\ (forall c0, nth_error configs 0 = Some c0 -> Permutation c0 cfg).
  Proof.
    intros Hne Hne2 HT. destruct (init_built cfg) as (net & last & old & Hb). exists (mkModel net last). split; [unfold model_init; destruct Hb as (-> & _); reflexivity|]. intros fuel g f Hfuel Hg Hf.
    pose proof Hb as (B1 & B2 & B3 & B4 & B5). rewrite (filter_id _ _ Hne) in B5. assert (Hold : old <> []) by (intros ->; apply Permutation_nil in B5; contradiction).
    assert (Hpow : ((length rout + 1) ^ Z.to_nat T = (length rout + 1) * (length rout + 1) ^ Z.to_nat (T - 1))%nat) by (rewrite <- Nat.pow_succ_r'; f_equal; lia).
    unfold evolve. cbn [get_input_function rbind m_net]. replace (match g_rule g with Some _ => true | None => false end) with false by (destruct Hg as (-> & _); reflexivity). rewrite andb_false_r. cbn [set_activities rbind].
    destruct Hg as (G1 & G2 & G3 & G4 & G5). assert (Hg : wolfram_args fuel g) by (unfold wolfram_args; auto). rewrite G4. unfold set_network. pose proof (built_nodes _ _ _ _ Hb Hold) as Hnn. destruct (net_nodes net) as [|x ns] eqn:Ens; [contradiction|]. cbn [rbind]. clear Hnn.
    destruct (wolfram_loop fuel g (match g_key g with Some k => k | None => default_key net end) T Hg (Z.to_nat (T - 1)) 1
      (mkCfg (mkModel net last) [] net [] (match g_topo g with Some _ => None | None => Some (get_neighbourhood_map net) end) [mkState None (Some (Raw net))]) cfg net last old [] f Hb Hne Hne2) as (c' & new & configs & L1 & L2 & L3 & L4 & L5).
    - rewrite Hpow in Hfuel. assert (1 <= length cfg)%nat by (destruct cfg; [congruence|cbn; lia]). nia.
    - apply (hist_one rin rout old).
    - intros _ n Hn. cbn [app concat] in Hn. rewrite app_nil_r in Hn. rewrite B3. apply fold_max_ge. right. eapply in_concat_perm; [exact B5|]. exact Hn.
    - reflexivity.
    - reflexivity.
    - lia.
    - lia.
    - rewrite G2 in L1 |- *. rewrite L1. cbn [rbind]. exists (c_u c'), (c_traj c'), (old :: configs). split; [reflexivity|]. rewrite L2. split; [constructor; [exists net; auto|assumption]|]. split; [cbn [length]; lia|]. split; [assumption|]. intros c0 E0. injection E0 as <-. assumption.
  Qed.
End Runs.
