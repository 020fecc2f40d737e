(** * C55, C69: the fungal growth model *)
From Coq Require Import QArith Permutation.
From Verif Require Import Py PyFacts ListFacts Network NetworkSpec NetworkProofs NetworkProofs2 Evolve EvolveSpec EvolveProofs EvolveProofs2 EvolveStatic EvolveTopo SandpileSpec SandpileProofs FungalSpec Fungal FungalProofs FungalProofs2.
Open Scope string_scope.
Open Scope list_scope.
Open Scope Z_scope.

(** a grid, one initial condition per agent, and no resource layer or one of the right size *)
Definition fungal_setup (width height : Z) (ic rl : list Q) : Prop :=
  0 < width /\ 0 < height /\ Z.of_nat (length ic) = width * height /\ (rl = [] \/ Z.of_nat (length rl) = width * height).

Lemma init_ok set_order R_E w h ic rl : (forall l, any_order l (set_order l)) -> fungal_setup w h ic rl ->
  exists o, fungal_init set_order R_E w h ic rl = Ok o /\ good_links h w (f_links o) /\ f_net o = init_network (w * h) /\ f_RE o = R_E /\ Z.of_nat (length (f_layer o)) = w * h /\
    forall u, 0 <= u < w * h -> nth_error (f_layer o) (Z.to_nat u) = Some (layer_at rl ic u).
Proof.
  intros Hso (Hw & Hh & Hic & Hrl). destruct (fungal_links w h Hw Hh) as (net & En & Hnd & Hl). cbn zeta in *.
  destruct (layer_ok (w * h) ic rl ltac:(nia) Hic Hrl) as (layer & El & Hlen & Hlay). unfold fungal_init. rewrite En. cbn [rbind].
  unfold make_layer in El. rewrite El. cbn [rbind]. eexists. split; [reflexivity|]. cbn [f_links f_net f_RE f_layer]. split; [|auto].
  set (links := fold_left _ (edges net) []) in *. pose proof (any_order_keys _ _ (Hso links)) as Hp. split; [eapply Permutation_NoDup; eassumption|].
  intros u v. rewrite <- Hl. split; apply Permutation_in; [symmetry|]; assumption.
Qed.

Lemma Permutation_filter {X} (f : X -> bool) l l' : Permutation l l' -> Permutation (filter f l) (filter f l').
Proof.
  induction 1 as [|x l l' H IH|x y l|l l' l'' H1 IH1 H2 IH2]; cbn; [constructor| | |etransitivity; eassumption].
  - destruct (f x); [constructor|]; assumption.
  - destruct (f x), (f y); try apply perm_swap; reflexivity.
Qed.
Section Runs.
  Context {BA BN I : Type}.
  Variable W : env Z Q Q BA BN.

  Definition recorded (s : state Z Q Q BA BN) (Sn : dict Z Q * network Z Q) : Prop := activities W s = Ok (Some (fst Sn)) /\ state_network W s = Ok (Some (snd Sn)).

  (** [hs] are the activities and networks that a FungalGrowthModel goes through in T timesteps, for some order of its set of links,
      some random numbers and some arguments of evolve that its documentation asks for *)
  Definition fungal_history (R_E : Q) (width height : Z) (ic rl : list Q) (T : Z) (hs : list (dict Z Q * network Z Q)) : Prop :=
    exists set_order rand o fuel k0 (g : @args Z Q Q nat I) uf traj, (forall l, any_order l (set_order l)) /\ fungal_init set_order R_E width height ic rl = Ok o /\
      topo_first g (activity_rule o) (Fungal.topology_rule o rand) /\ 1 <= T /\ (Z.to_nat T <= fuel)%nat /\
      evolve W fuel k0 (f_net o) (Some (CList ic)) (Some T) None g = Ok (uf, traj) /\ Forall2 recorded traj hs.

  Hypothesis Wlab : forall i, e_lab W i = Z.of_nat i.

  Lemma shows_recorded rows cols s S n es : 0 < rows * cols -> shows s (S, n) -> grown rows cols n es -> (forall v, 0 <= v < rows * cols -> exists a, dget S v = Some a) -> recorded s (S, n).
  Proof.
    intros HN [Hs Hn] Hg Hcov. cbn [fst snd] in *. unfold recorded, activities, state_network. rewrite Hs, Hn. cbn [fst snd]. split.
    - destruct (Hcov 0 ltac:(lia)) as [a Ea]. destruct S; [discriminate|reflexivity].
    - pose proof (grown_nodes _ _ _ _ Hg) as Hx. rewrite zrange_cons in Hx by lia. unfold nodes, dkeys in Hx. destruct (net_nodes n); [discriminate|reflexivity].
  Qed.

  (** the run never raises, in particular it never divides by zero *)
  Theorem C55_runs : forall set_order R_E w h ic rl, (forall l, any_order l (set_order l)) -> fungal_setup w h ic rl ->
    exists o, fungal_init set_order R_E w h ic rl = Ok o /\ forall rand fuel k0 (g : @args Z Q Q nat I) T, 1 <= T -> (Z.to_nat T <= fuel)%nat -> topo_first g (activity_rule o) (Fungal.topology_rule o rand) ->
      exists uf traj hs, evolve W fuel k0 (f_net o) (Some (CList ic)) (Some T) None g = Ok (uf, traj) /\ Z.of_nat (length hs) = T /\ Forall2 recorded traj hs.
  Proof.
    intros set_order R_E w h ic rl Hso Hset. destruct (init_ok set_order R_E w h ic rl Hso Hset) as (o & Eo & Hl & Hnet & HR & Hlen & Hlay). exists o. split; [assumption|].
    intros rand fuel k0 g T HT Hf Hg. destruct Hset as (Hw & Hh & Hic & _).
    destruct (fungal_run W fuel k0 ic T g o rand w h _ Hw Hh Wlab Hl Hnet Hlen Hlay Hic HT Hf Hg) as (uf & traj & hs & E & H1 & H2 & _ & H4 & _). exists uf, traj, hs. split; [assumption|]. split; [assumption|].
    clear - Hw Hh H2 H4. assert (Hx : Forall (fun Sn => (exists es, grown h w (snd Sn) es) /\ forall v, 0 <= v < w * h -> exists a, dget (fst Sn) v = Some a) hs).
    { apply Forall_forall. intros [S n] Hi. apply In_nth_error in Hi. destruct Hi as [k Ek]. exact (H4 k S n Ek). }
    clear H4. induction H2 as [|s [S n] traj hs Hs _ IH]; [constructor|]. inversion Hx as [|? ? [(es & Hg) Hcov] Hx']; subst. constructor; [|auto]. cbn [fst snd] in *. rewrite (Z.mul_comm w h) in Hcov. eapply shows_recorded; [|exact Hs|exact Hg|assumption]. nia.
  Qed.

  Lemma history_spec R_E w h ic rl T hs : fungal_setup w h ic rl -> fungal_history R_E w h ic rl T hs -> Z.of_nat (length hs) = T /\
    nth_error hs 0 = Some (to_dict W (CList ic), init_network (w * h)) /\
    (forall k S n, nth_error hs k = Some (S, n) -> (exists es, grown h w n es) /\ forall v, 0 <= v < w * h -> exists a, dget S v = Some a) /\
    (forall k S n S' n', nth_error hs k = Some (S, n) -> nth_error hs (Datatypes.S k) = Some (S', n') -> growth h w S (has_edge n) (has_edge n') /\ flow (w * h) (has_edge n') R_E (layer_at rl ic) S S' /\ weighted h w n').
  Proof.
    intros Hset (set_order & rand & o & fuel & k0 & g & uf & traj & Hso & Eo & Hg & HT & Hf & E & Hrec).
    destruct (init_ok set_order R_E w h ic rl Hso Hset) as (o' & Eo' & Hl & Hnet & HR & Hlen & Hlay). assert (o' = o) by congruence. subst o'. destruct Hset as (Hw & Hh & Hic & _).
    destruct (fungal_run W fuel k0 ic T g o rand w h _ Hw Hh Wlab Hl Hnet Hlen Hlay Hic HT Hf Hg) as (uf' & traj' & hs' & E' & H1 & H2 & H3 & H4 & H5). assert (traj' = traj) by congruence. subst traj'.
    assert (hs' = hs); [|subst hs'; rewrite <- HR; auto].
    assert (Hx : Forall (fun Sn => (exists es, grown h w (snd Sn) es) /\ forall v, 0 <= v < w * h -> exists a, dget (fst Sn) v = Some a) hs').
    { apply Forall_forall. intros [S n] Hi. apply In_nth_error in Hi. destruct Hi as [k Ek]. exact (H4 k S n Ek). }
    clear - Hw Hh Hrec H2 Hx. revert hs Hrec. induction H2 as [|s [S n] traj hs' Hs _ IH]; intros hs Hrec; inversion Hrec as [|? [S1 n1] ? ? Hr Hrec']; subst; [reflexivity|]. inversion Hx as [|? ? [(es & Hg) Hcov] Hx']; subst. cbn [fst snd] in *. rewrite (Z.mul_comm w h) in Hcov.
    assert (Hr2 : recorded s (S, n)) by (eapply shows_recorded; [|exact Hs|exact Hg|assumption]; nia). destruct Hr as [R1 R2], Hr2 as [R3 R4]. cbn [fst snd] in *. f_equal; [congruence|]. auto.
  Qed.

  (** every network on the way: edges only between agents beside each other, at most one per pair, so at most four at any agent *)
  Theorem C55_links : forall R_E w h ic rl T hs, fungal_setup w h ic rl -> fungal_history R_E w h ic rl T hs -> Z.of_nat (length hs) = T /\
    forall k S n, nth_error hs k = Some (S, n) -> nodes n = zrange 0 (w * h) /\ NoDup (map fst (edges n)) /\
      (forall u v, In (u, v) (map fst (edges n)) -> 0 <= u < w * h /\ 0 <= v < w * h /\ beside h w u v = true /\ ~ In (v, u) (map fst (edges n))) /\
      forall v, 0 <= v < w * h -> exists d, Network.degree n v = Ok d /\ 0 <= d <= 4.
  Proof.
    intros R_E w h ic rl T hs Hset Hh. destruct (history_spec _ _ _ _ _ _ _ Hset Hh) as (H1 & _ & H3 & _). split; [assumption|]. intros k S n Ek. destruct Hset as (Hw & Hhh & _). destruct (H3 k S n Ek) as [(es & Hg) _].
    rewrite (Z.mul_comm w h). split; [eapply grown_nodes; exact Hg|]. pose proof Hg as (HR & _ & Hs). pose proof (Permutation_map fst (edges_R _ _ HR)) as Hp. cbn [g_edges] in Hp. pose proof Hs as (Hnd & Hs' & _).
    split; [eapply Permutation_NoDup; [symmetry; exact Hp|assumption]|]. split.
    - intros u v Hi. apply (Permutation_in _ Hp) in Hi. destruct (Hs' u v Hi) as (K1 & K2 & K3 & K4). split; [assumption|]. split; [assumption|]. split; [assumption|]. intros Hx. apply K4. exact (Permutation_in _ Hp Hx).
    - intros v Hv. exists (Z.of_nat (length (mates es v))). split; [eapply degree_mates; eassumption|]. pose proof (degree_le h w es v Hhh Hw Hs Hv). lia.
  Qed.

  (** after every timestep the weights of the edges that leave an agent add up to 1 *)
  Definition weight_of (e : Z * Z * dict string Q) : Q := match dget (snd e) "weight" with Some w => w | None => 0%Q end.
  Theorem C55_weights : forall R_E w h ic rl T hs k S n u, fungal_setup w h ic rl -> fungal_history R_E w h ic rl T hs -> nth_error hs (Datatypes.S k) = Some (S, n) ->
    let leaving := filter (fun e => fst (fst e) =? u) (edges n) in leaving <> [] -> (forall e, In e leaving -> exists x, snd e = [("weight", x)]) /\ (Qsum (map weight_of leaving) == 1)%Q.
  Proof.
    intros R_E w h ic rl T hs k S n u Hset Hh Ek leaving Hne. destruct (history_spec _ _ _ _ _ _ _ Hset Hh) as (_ & _ & H3 & H4).
    destruct (nth_error hs k) as [[S0 n0]|] eqn:E0; [|apply nth_error_None in E0; assert (Datatypes.S k < length hs)%nat by (apply nth_error_Some; congruence); lia].
    destruct (H4 k S0 n0 S n E0 Ek) as (_ & _ & Hw). destruct (H3 _ _ _ Ek) as [(es & Hg) _]. pose proof Hg as (HR & _).
    assert (Hlen : length leaving = length (targets (h * w) (has_edge n) u)).
    { rewrite (targets_count h w n es u Hg). unfold out_count, leaving, from. apply Permutation_length. etransitivity; [|apply Permutation_filter, (edges_R _ _ HR)]. cbn. erewrite filter_ext; [reflexivity|]. intros e. symmetry. apply eqbZ. }
    assert (Hall : forall e, In e leaving -> snd e = [("weight", 1 / inject_Z (Z.of_nat (length leaving)))%Q]).
    { intros e He. unfold leaving in He. apply filter_In in He. destruct He as [He Hu]. apply Z.eqb_eq in Hu. rewrite (Hw e He), Hu, Hlen. reflexivity. }
    split; [intros e He; eauto|].
    assert (Hsum : forall l : list (Z * Z * dict string Q), incl l leaving -> (Qsum (map weight_of l) == inject_Z (Z.of_nat (length l)) * (1 / inject_Z (Z.of_nat (length leaving))))%Q).
    { induction l as [|e l IH]; intros Hi; [reflexivity|]. cbn [map Qsum fold_right length]. fold (Qsum (map weight_of l)). rewrite IH by (intros x Hx; apply Hi; right; assumption).
      unfold weight_of at 1. rewrite (Hall e (Hi e (or_introl eq_refl))). change (dget [("weight", ?a)] "weight") with (Some a) || cbn. rewrite Nat2Z.inj_succ. unfold Z.succ. rewrite inject_Z_plus. ring. }
    rewrite (Hsum leaving (incl_refl _)). field. change 0%Q with (inject_Z 0). rewrite inject_Z_injective. destruct leaving; [congruence|cbn [length]; lia].
  Qed.

  (** what grows and flows in each timestep *)
  Theorem C69_step : forall R_E w h ic rl T hs, fungal_setup w h ic rl -> fungal_history R_E w h ic rl T hs ->
    (exists S0 n0, nth_error hs 0 = Some (S0, n0) /\ edges n0 = [] /\ forall v, 0 <= v < w * h -> dget S0 v = nth_error ic (Z.to_nat v)) /\
    forall k S n S' n', nth_error hs k = Some (S, n) -> nth_error hs (Datatypes.S k) = Some (S', n') -> growth h w S (has_edge n) (has_edge n') /\ flow (w * h) (has_edge n') R_E (layer_at rl ic) S S'.
  Proof.
    intros R_E w h ic rl T hs Hset Hh. destruct (history_spec _ _ _ _ _ _ _ Hset Hh) as (_ & H2 & _ & H4). split.
    - eexists _, _. split; [exact H2|]. split; [unfold edges, init_network; cbn [net_nodes]; induction (zrange 0 (w * h)); [reflexivity|assumption]|]. intros v Hv. cbn [to_dict]. apply dget_enumerate; [assumption|lia].
    - intros k S n S' n' E1 E2. destruct (H4 k S n S' n' E1 E2) as (K1 & K2 & _). auto.
  Qed.

  Lemma Qsum_pos {X} (f : X -> Q) l : l <> [] -> (forall x, In x l -> (0 < f x)%Q) -> (0 < Qsum (map f l))%Q.
  Proof.
    intros Hne Hf. assert (Hge : forall l : list X, (forall x, In x l -> (0 < f x)%Q) -> (0 <= Qsum (map f l))%Q).
    { clear. induction l as [|x l IH]; intros Hf; [apply Qle_refl|]. cbn. apply (Qplus_le_compat 0 _ 0); [apply Qlt_le_weak, Hf; left; reflexivity|apply IH; intros y Hy; apply Hf; right; assumption]. }
    destruct l as [|x l]; [congruence|]. cbn. apply (Qplus_lt_le_compat 0 _ 0); [apply Hf; left; reflexivity|apply Hge; intros y Hy; apply Hf; right; assumption].
  Qed.

  (** with nothing negative to start from: links stay, living agents stay alive, a dead one comes alive exactly when a link reaches it *)
  Theorem C69_alive : forall R_E w h ic rl T hs, fungal_setup w h ic rl -> fungal_history R_E w h ic rl T hs -> (0 <= R_E)%Q -> Forall (Qle 0) ic -> Forall (Qle 0) rl ->
    (forall k S n v, nth_error hs k = Some (S, n) -> 0 <= v < w * h -> (0 <= amount S v)%Q) /\
    forall k k' S n S' n', (k <= k')%nat -> nth_error hs k = Some (S, n) -> nth_error hs k' = Some (S', n') ->
      (forall u v, has_edge n u v = true -> has_edge n' u v = true) /\
      forall v, 0 <= v < w * h -> alive S' v <-> alive S v \/ (k < k')%nat /\ exists u, has_edge n' u v = true.
  Proof.
    intros R_E w h ic rl T hs Hset Hh HRE Hic Hrl. destruct (history_spec _ _ _ _ _ _ _ Hset Hh) as (_ & H0 & H3 & H4).
    assert (Hlayer : forall v, (0 <= layer_at rl ic v)%Q).
    { intros v. unfold layer_at. destruct rl as [|q rl'] eqn:Er; [destruct (Qeq_bool _ 0); discriminate|]. rewrite <- Er in *. destruct (Nat.lt_ge_cases (Z.to_nat v) (length rl)); [|rewrite nth_overflow by lia; apply Qle_refl]. rewrite Forall_forall in Hrl. apply Hrl, nth_In. assumption. }
    (* sources are alive and nothing is negative *)
    set (P := fun (S : dict Z Q) (n : network Z Q) => (forall v, 0 <= v < w * h -> (0 <= amount S v)%Q) /\ forall u v, has_edge n u v = true -> alive S u).
    assert (Hstep : forall k S n S' n', nth_error hs k = Some (S, n) -> nth_error hs (Datatypes.S k) = Some (S', n') -> P S n -> P S' n' /\ (forall v, 0 <= v < w * h -> alive S' v <-> alive S v \/ exists u, has_edge n' u v = true)).
    { intros k S n S' n' E1 E2 [Hpos Hsrc]. destruct (H4 k S n S' n' E1 E2) as ((G1 & G2 & G3 & G4) & Hflow & _). destruct (H3 _ _ _ E2) as [(es & Hg) _]. pose proof Hg as (HR & _ & _ & Hs & _).
      assert (Hrng : forall u v, has_edge n' u v = true -> 0 <= u < w * h /\ 0 <= v < w * h) by (intros u v He; apply (has_edge_in _ _ _ _ _ HR) in He; apply Hs in He; rewrite (Z.mul_comm w h); tauto).
      assert (Hsa : forall u v, has_edge n' u v = true -> alive S u) by (intros u v He; destruct (G2 u v He) as [Hx|Hx]; [eauto|tauto]).
      assert (Habs : forall v, (0 <= (if Qlt_le_dec 0 (amount S v) then R_E * layer_at rl ic v else 0))%Q) by (intros v; destruct (Qlt_le_dec _ _); [apply Qmult_le_0_compat; [assumption|apply Hlayer]|apply Qle_refl]).
      assert (Hval : forall v, 0 <= v < w * h -> ((exists u, has_edge n' u v = true) -> alive S' v) /\ (~ (exists u, has_edge n' u v = true) -> (amount S' v == amount S v + (if Qlt_le_dec 0 (amount S v) then R_E * layer_at rl ic v else 0))%Q)).
      { intros v Hv. specialize (Hflow v Hv). assert (Hin : forall u, In u (sources (w * h) (has_edge n') v) <-> has_edge n' u v = true) by (intros u; unfold sources; rewrite filter_In, in_zrange; split; [tauto|intros Hx; destruct (Hrng u v Hx); auto]).
        destruct (sources (w * h) (has_edge n') v) as [|s0 sl] eqn:Es; split.
        - intros [u Hu]. apply Hin in Hu. destruct Hu.
        - intros _. exact Hflow.
        - intros _. unfold alive. rewrite Hflow. apply (Qplus_lt_le_compat 0 _ 0); [|apply Habs]. apply Qsum_pos; [discriminate|]. intros u Hu. apply Hin in Hu. apply Qlt_shift_div_l.
          + change 0%Q with (inject_Z 0). rewrite <- Zlt_Qlt. assert (Hx : In v (targets (w * h) (has_edge n') u)) by (unfold targets; rewrite filter_In, in_zrange; auto). destruct (targets (w * h) (has_edge n') u); [destruct Hx|cbn [length]; lia].
          + rewrite Qmult_0_l. apply (Hsa u v Hu).
        - intros Hx. exfalso. apply Hx. exists s0. apply Hin. left. reflexivity. }
      assert (Hdec : forall v, 0 <= v < w * h -> (exists u, has_edge n' u v = true) \/ ~ (exists u, has_edge n' u v = true)).
      { intros v Hv. destruct (existsb (fun u => has_edge n' u v) (zrange 0 (w * h))) eqn:Ex; [apply existsb_exists in Ex; destruct Ex as (u & _ & Hu); eauto|]. right. intros [u Hu]. rewrite <- not_true_iff_false in Ex. apply Ex, existsb_exists. exists u. split; [apply in_zrange; apply (Hrng u v Hu)|assumption]. }
      assert (Hal : forall v, 0 <= v < w * h -> alive S' v <-> alive S v \/ exists u, has_edge n' u v = true).
      { intros v Hv. destruct (Hval v Hv) as [V1 V2]. destruct (Hdec v Hv) as [Hx|Hx]; [tauto|]. specialize (V2 Hx). specialize (Hpos v Hv) as Hp. split.
        - intros Ha. left. unfold alive in *. rewrite V2 in Ha. destruct (Qlt_le_dec 0 (amount S v)) as [Hq|Hq]; [assumption|]. rewrite Qplus_0_r in Ha. exact Ha.
        - intros [Ha|Ha]; [|contradiction]. unfold alive in *. rewrite V2. apply (Qplus_lt_le_compat 0 _ 0); [assumption|apply Habs]. }
      split; [|assumption]. split.
      - intros v Hv. destruct (Hval v Hv) as [V1 V2]. destruct (Hdec v Hv) as [Hx|Hx]; [apply Qlt_le_weak, V1; assumption|]. rewrite (V2 Hx). apply (Qplus_le_compat 0 _ 0); [apply Hpos; assumption|apply Habs].
      - intros u v He. apply Hal; [apply (Hrng u v He)|]. left. eauto. }
    assert (HP : forall k S n, nth_error hs k = Some (S, n) -> P S n).
    { induction k as [|k IH]; intros S n Ek.
      - rewrite H0 in Ek. injection Ek as <- <-. split.
        + intros v Hv. unfold amount. cbn [to_dict]. rewrite dget_enumerate by (assumption || lia). destruct (nth_error ic (Z.to_nat v)) as [a|] eqn:Ea; [|apply Qle_refl]. rewrite Forall_forall in Hic. eapply Hic, nth_error_In, Ea.
        + intros u v He. exfalso. destruct (H3 0%nat _ _ H0) as [_ _]. pose proof (init_grown h w) as (HR & _). rewrite (Z.mul_comm w h) in He. apply (has_edge_in _ _ _ _ _ HR) in He. destruct He.
      - destruct (nth_error hs k) as [[S0 n0]|] eqn:E0; [|apply nth_error_None in E0; assert (Datatypes.S k < length hs)%nat by (apply nth_error_Some; congruence); lia]. apply (Hstep k S0 n0 S n E0 Ek). apply IH. reflexivity. }
    split; [intros k S n v Ek Hv; apply (HP k S n Ek); assumption|].
    intros k k' S n S' n' Hk Ek. revert S' n'. induction Hk as [|k' Hk IH]; intros S' n' Ek'.
    - assert (HE : (S', n') = (S, n)) by congruence. injection HE as -> ->. split; [auto|]. intros v Hv. split; [auto|]. intros [Hx|[Hx _]]; [assumption|lia].
    - destruct (nth_error hs k') as [[S1 n1]|] eqn:E1; [|apply nth_error_None in E1; assert (Datatypes.S k' < length hs)%nat by (apply nth_error_Some; congruence); lia].
      destruct (IH S1 n1 eq_refl) as [I1 I2]. destruct (H4 k' S1 n1 S' n' E1 Ek') as ((G1 & _) & _). destruct (Hstep k' S1 n1 S' n' E1 Ek' (HP _ _ _ E1)) as [_ Hal]. split; [auto|].
      intros v Hv. rewrite (Hal v Hv), (I2 v Hv). split.
      + intros [[Hx|[_ [u Hu]]]|Hx]; [auto|right; split; [lia|exists u; auto]|right; split; [lia|assumption]].
      + intros [Hx|[_ Hx]]; auto.
  Qed.
End Runs.

(** a resource layer of another size is refused *)
Theorem C55_layer_size : forall set_order R_E w h ic rl, 0 < w -> 0 < h -> rl <> [] -> Z.of_nat (length rl) <> w * h -> fungal_init set_order R_E w h ic rl = Err AssertionError.
Proof.
  intros set_order R_E w h ic rl Hw Hh Hne Hlen. destruct (fungal_links w h Hw Hh) as (net & En & _). unfold fungal_init. rewrite En. cbn [rbind]. destruct rl; [congruence|]. destruct (Z.eqb_spec (Z.of_nat (length (q :: rl))) (w * h)); [contradiction|reflexivity].
Qed.

(** ** a concrete growth on a 3 x 2 torus, every draw 0 *)
Definition Wf : env Z Q Q unit unit := mkEnv Z.of_nat Some (fun a => a) (fun _ => Err Unmodelled) (fun _ => Err Unmodelled) (fun _ => Err Unmodelled) (fun _ => Err Unmodelled).
Definition ic32 : list Q := [2; 0; 0; 0; 0; 0]%Q.
Definition o32 (R_E : Q) : fungal := match fungal_init (fun l => l) R_E 3 2 ic32 [] with Ok o => o | Err _ => mkFungal 0 [] empty_network [] end.
Definition g32 (R_E : Q) : @args Z Q Q nat Z := mkArgs (Some (stateless (activity_rule (o32 R_E)))) (Some (Fungal.topology_rule (o32 R_E) (fun _ => 0%Q))) None [] TOPOLOGY_FIRST false false true true false None.
Definition run32 (R_E : Q) (T : Z) := evolve Wf 4 0%nat (f_net (o32 R_E)) (Some (CList ic32)) (Some T) None (g32 R_E).
Definition seen32 (R_E : Q) (T : Z) : list (dict Z Q * network Z Q) :=
  match run32 R_E T with
  | Ok (_, tr) => flat_map (fun s => match activities Wf s, state_network Wf s with Ok (Some a), Ok (Some n) => [(a, n)] | _, _ => [] end) tr
  | Err _ => []
  end.

Lemma any_order_refl l : any_order l l.
Proof. exists l. split; [reflexivity|]. induction l; constructor; auto. Qed.
Lemma setup32 : fungal_setup 3 2 ic32 [].
Proof. unfold fungal_setup. cbn. auto with zarith. Qed.
Lemma history32 R_E T : 1 <= T <= 4 -> fungal_history Wf (I:=Z) R_E 3 2 ic32 [] T (seen32 R_E T).
Proof.
  intros HT. destruct (C55_runs (I:=Z) Wf (fun i => eq_refl) (fun l => l) R_E 3 2 ic32 [] any_order_refl setup32) as (o & Eo & Ho).
  assert (Eo' : o32 R_E = o) by (unfold o32; rewrite Eo; reflexivity).
  destruct (Ho (fun _ => 0%Q) 4%nat 0%nat (g32 R_E) T) as (uf & traj & hs & E & _ & Hr); [lia|lia|unfold topo_first, g32; cbn; rewrite Eo'; repeat split|].
  exists (fun l => l), (fun _ => 0%Q), o, 4%nat, 0%nat, (g32 R_E), uf, traj. split; [exact any_order_refl|]. split; [exact Eo|]. split; [unfold topo_first, g32; cbn; rewrite Eo'; repeat split|]. split; [lia|]. split; [lia|]. split; [exact E|].
  unfold seen32, run32. rewrite Eo', E. clear - Hr. induction Hr as [|s [a n] tr hs [H1 H2] _ IH]; [constructor|]. cbn [flat_map]. rewrite H1, H2. cbn [fst snd app]. constructor; [split; assumption|exact IH].
Qed.

(** the hypotheses of C55 and C69 are met by a run in which all six agents come alive and all nine links appear *)
Example C55_C69_nonvacuous : exists hs S n, fungal_setup 3 2 ic32 [] /\ fungal_history Wf (I:=Z) (1 # 2) 3 2 ic32 [] 4 hs /\ nth_error hs 3 = Some (S, n) /\
  map fst (edges n) = [(0, 1); (2, 1); (0, 2); (0, 3); (3, 4); (1, 4); (5, 4); (3, 5); (2, 5)] /\ map (fun p => Qred (snd p)) S = [7 # 2; 17 # 12; 1; 1; 9 # 4; 5 # 6]%Q /\
  Forall (Qle 0) ic32 /\ (0 <= 1 # 2)%Q.
Proof.
  exists (seen32 (1 # 2) 4). destruct (nth_error (seen32 (1 # 2) 4) 3) as [[S n]|] eqn:E; [|vm_compute in E; discriminate]. exists S, n. split; [exact setup32|]. split; [apply history32; lia|]. split; [reflexivity|].
  vm_compute in E. injection E as <- <-. split; [vm_compute; reflexivity|]. split; [vm_compute; reflexivity|]. split; [repeat constructor; discriminate|discriminate].
Qed.

(** C69 needs a non-negative absorption rate: with R_E = -2 the first agent dies at once *)
Theorem C69_negative_rate_refuted : exists hs S n S' n', fungal_setup 3 2 ic32 [] /\ fungal_history Wf (I:=Z) (- (2)) 3 2 ic32 [] 2 hs /\ Forall (Qle 0) ic32 /\
  nth_error hs 0 = Some (S, n) /\ nth_error hs 1 = Some (S', n') /\ alive S 0 /\ ~ alive S' 0.
Proof.
  exists (seen32 (- (2)) 2). destruct (nth_error (seen32 (- (2)) 2) 0) as [[S n]|] eqn:E; [|vm_compute in E; discriminate]. destruct (nth_error (seen32 (- (2)) 2) 1) as [[S' n']|] eqn:E'; [|vm_compute in E'; discriminate]. exists S, n, S', n'.
  split; [exact setup32|]. split; [apply history32; lia|]. split; [repeat constructor; discriminate|]. split; [reflexivity|]. split; [reflexivity|]. vm_compute in E, E'. injection E as <- <-. injection E' as <- <-. split; [reflexivity|]. unfold alive. vm_compute. discriminate.
Qed.

Print Assumptions C55_runs.
Print Assumptions C55_links.
Print Assumptions C55_weights.
Print Assumptions C55_layer_size.
Print Assumptions C69_step.
Print Assumptions C69_alive.
Print Assumptions C69_negative_rate_refuted.
