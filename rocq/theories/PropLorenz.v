(** Property theorems for demos/lorenz_attractor (C98). *)
From Coq Require Import QArith Qpower Lqa.
From Verif Require Import Py PyFacts ListFacts Network Topology Evolve EvolveSpec EvolveProofs EvolveStatic CaSpec CaRun Fungal Maps FieldRun.
Open Scope string_scope.
Open Scope list_scope.
Open Scope Z_scope.

Notation point := (Q * Q * Q)%type.
(** same coordinates, as numbers *)
Definition same (p q : point) : Prop := (fst (fst p) == fst (fst q) /\ snd (fst p) == snd (fst q) /\ snd p == snd q)%Q.

(** the Lorenz equations, one step of Euler's method (README and docstring of the demos): the change of each coordinate in time [dt] *)
Definition lorenz_step (a b r dt : Q) (p q : point) : Prop :=
  let '(x, y, z) := p in let '(x', y', z') := q in
  (x' - x == dt * (a * (y - x)) /\ y' - y == dt * (x * (r - z) - y) /\ z' - z == dt * (x * y - b * z))%Q.

Section Theorems.
  Context {U I U' I' BA BN BA' BN' : Type}.
  Notation env1 := (env Z Q point BA BN).
  Notation args1 := (@args Z Q point U I).
  Notation env3 := (env string Q Q BA' BN').
  Notation args3 := (@args string Q Q U' I').

  Definition euler (a b r dt : Q) (p : point) : point :=
    let '(x, y, z) := p in ((x + a * (y - x) * dt)%Q, (y + (r * x - y - x * z) * dt)%Q, (z + (x * y - b * z) * dt)%Q).

  Lemma euler_same a b r dt p q : same p q -> same (euler a b r dt p) (euler a b r dt q).
  Proof. destruct p as [[x y] z], q as [[x' y'] z']. intros (E1 & E2 & E3). cbn in *. unfold same. cbn. rewrite E1, E2, E3. repeat split; reflexivity. Qed.
  Lemma same_trans p q s : same p q -> same q s -> same p s.
  Proof. intros (A1 & A2 & A3) (B1 & B2 & B3). repeat split; [rewrite A1|rewrite A2|rewrite A3]; assumption. Qed.
  Lemma same_sym p q : same p q -> same q p.
  Proof. intros (A1 & A2 & A3). repeat split; symmetry; assumption. Qed.

  Lemma one_run (W : env1) fuel (u0 : U) a b r dt p0 c T (g : args1) :
    static g (stateless (lorenz_rule a b r dt)) -> 1 <= T -> (Z.to_nat T <= fuel)%nat -> to_dict W c = [(0, p0)] ->
    exists hs, runs W fuel u0 lorenz_node c T g hs /\ forall k S, nth_error hs k = Some S -> S = [(0, Nat.iter k (euler a b r dt) p0)].
  Proof.
    intros Hst HT Hf Hc. set (F := fun (v : Z) (s : Z -> point) => euler a b r dt (s v)).
    destruct (field_run W fuel u0 lorenz_node c T g (lorenz_rule a b r dt) F (fun _ => p0) Hst) as (hs & Hrun & Hz & Hkeys & Hk); try assumption.
    - repeat constructor; cbn; intuition.
    - rewrite Hc. reflexivity.
    - intros v [<-|[]]. exists [], []. split; [reflexivity|]. split; [eexists; split; reflexivity|]. intros w [].
    - intros v [<-|[]]. rewrite Hc. reflexivity.
    - intros S s t past v x Hs Hv Hx. pose proof (cf_cur _ _ _ _ _ _ _ _ Hx) as Ec. rewrite (Hs v Hv) in Ec. injection Ec as Ec. unfold lorenz_rule, F. rewrite <- Ec. destruct (s v) as [[px py] pz]. reflexivity.
    - exists hs. split; [assumption|]. intros k S Ek.
      assert (Hd : dget S 0 = Some (field_state F k (fun _ => p0) 0)) by (apply (Hk k S Ek); left; reflexivity).
      assert (Es : forall j, field_state F j (fun _ => p0) 0 = Nat.iter j (euler a b r dt) p0).
      { induction j as [|j IH]; [reflexivity|]. rewrite field_state_S. unfold F at 1. rewrite IH. reflexivity. }
      rewrite Es in Hd. assert (Hkey : map fst S = [0]) by (destruct k as [|k]; [rewrite Hz in Ek; injection Ek as <-; rewrite Hc; reflexivity|apply (Hkeys k S Ek)]).
      destruct S as [|[v q] [|]]; try discriminate. injection Hkey as ->. cbn in Hd. injection Hd as ->. reflexivity.
  Qed.

  (** C98: the states of lorenz_attractor_demo.py follow Euler's method for the Lorenz equations *)
  Theorem C98_euler : forall (W : env1) fuel (u0 : U) a b r dt p0 c T (g : args1),
    static g (stateless (lorenz_rule a b r dt)) -> 1 <= T -> (Z.to_nat T <= fuel)%nat -> to_dict W c = [(0, p0)] ->
    exists l : list point, runs W fuel u0 lorenz_node c T g (map (fun p => [(0, p)]) l) /\ nth_error l 0 = Some p0 /\
      (forall k p q, nth_error l k = Some p -> nth_error l (S k) = Some q ->
         lorenz_step a b r dt p q /\
         (* equilibria *)
         (~ (a == 0)%Q -> ~ (dt == 0)%Q ->
           (same p q <-> (snd (fst p) == fst (fst p) /\ fst (fst p) * (r - 1 - snd p) == 0 /\ fst (fst p) * fst (fst p) == b * snd p)%Q))) /\
      (* the z axis *)
      ((fst (fst p0) == 0)%Q -> (snd (fst p0) == 0)%Q -> forall k p, nth_error l k = Some p -> same p (0, 0, (1 - b * dt) ^ Z.of_nat k * snd p0)%Q).
  Proof.
    intros W fuel u0 a b r dt p0 c T g Hst HT Hf Hc. destruct (one_run W fuel u0 a b r dt p0 c T g Hst HT Hf Hc) as (hs & Hrun & Hk).
    exists (map (fun k => Nat.iter k (euler a b r dt) p0) (seq 0 (length hs))).
    assert (Hl : forall k p, nth_error (map (fun k => Nat.iter k (euler a b r dt) p0) (seq 0 (length hs))) k = Some p -> p = Nat.iter k (euler a b r dt) p0).
    { intros k p E. rewrite nth_error_map in E. destruct (nth_error (seq 0 (length hs)) k) as [j|] eqn:Ej; [|discriminate]. cbn in E. injection E as <-.
      assert (Hlt : (k < length (seq 0 (length hs)))%nat) by (apply nth_error_Some; congruence). rewrite seq_length in Hlt.
      rewrite (nth_error_nth' _ 0%nat) in Ej by (rewrite seq_length; assumption). rewrite seq_nth in Ej by assumption. injection Ej as <-. reflexivity. }
    split; [|split; [|split]].
    - replace (map _ _) with hs; [assumption|]. apply nth_error_ext. intros k. rewrite map_map, nth_error_map. destruct (nth_error hs k) as [S|] eqn:ES.
      + assert (Hlt : (k < length hs)%nat) by (apply nth_error_Some; congruence). rewrite (nth_error_nth' _ 0%nat) by (rewrite seq_length; assumption). rewrite seq_nth by assumption.
        cbn [option_map Nat.add]. f_equal. apply (Hk k S ES).
      + apply nth_error_None in ES. assert (Hn : nth_error (seq 0 (length hs)) k = None) by (apply nth_error_None; rewrite seq_length; assumption). rewrite Hn. reflexivity.
    - destruct Hrun as (uf & traj & _ & HT' & _). destruct hs as [|S hs]; [cbn in HT'; lia|]. reflexivity.
    - intros k p q Ep Eq. apply Hl in Ep. apply Hl in Eq. change (Nat.iter (S k) (euler a b r dt) p0) with (euler a b r dt (Nat.iter k (euler a b r dt) p0)) in Eq. rewrite <- Ep in Eq. subst q. clear Ep.
      destruct p as [[x y] z]. split; [cbn; repeat split; ring|]. intros Ha Hdt. unfold same. cbn [euler fst snd]. split.
      + intros (E1 & E2 & E3).
        assert (H1 : (a * (y - x) * dt == 0)%Q) by lra. assert (H2 : ((r * x - y - x * z) * dt == 0)%Q) by lra. assert (H3 : ((x * y - b * z) * dt == 0)%Q) by lra.
        apply Qmult_integral in H1. destruct H1 as [H1|H1]; [|contradiction]. apply Qmult_integral in H1. destruct H1 as [H1|H1]; [contradiction|].
        apply Qmult_integral in H2. destruct H2 as [H2|H2]; [|contradiction]. apply Qmult_integral in H3. destruct H3 as [H3|H3]; [|contradiction].
        assert (Hy : (y == x)%Q) by lra. rewrite Hy in H2, H3. split; [assumption|]. split; lra.
      + intros (E1 & E2 & E3). rewrite E1. repeat split; [ring| |].
        * assert (E : (r * x - x - x * z == 0)%Q) by lra. rewrite E. ring.
        * assert (E : (x * x - b * z == 0)%Q) by lra. rewrite E. ring.
    - intros Hx0 Hy0 k p Ep. apply Hl in Ep. subst p. induction k as [|k IH]; [destruct p0 as [[x y] z]; change ((1 - b * dt) ^ Z.of_nat 0)%Q with 1%Q; unfold same; cbn [fst snd Nat.iter nat_rect] in *; repeat split; lra|].
      change (Nat.iter (S k) (euler a b r dt) p0) with (euler a b r dt (Nat.iter k (euler a b r dt) p0)). eapply same_trans; [apply euler_same, IH|].
      unfold same. cbn [euler fst snd]. split; [ring|]. split; [ring|]. rewrite Nat2Z.inj_succ. unfold Z.succ.
      assert (Epow : ((1 - b * dt) ^ (Z.of_nat k + 1) == (1 - b * dt) ^ Z.of_nat k * (1 - b * dt))%Q).
      { destruct (Qeq_dec (1 - b * dt) 0) as [E|E]; [|rewrite Qpower_plus by assumption; reflexivity]. rewrite E, Qmult_0_r. apply Qpower_0. lia. }
      rewrite Epow. ring.
  Qed.

  (** C98: reflecting the initial point in the z axis reflects the whole trajectory *)
  Theorem C98_symmetry : forall (W : env1) fuel (u0 : U) a b r dt x0 y0 z0 c c' T (g : args1),
    static g (stateless (lorenz_rule a b r dt)) -> 1 <= T -> (Z.to_nat T <= fuel)%nat -> to_dict W c = [(0, (x0, y0, z0))] -> to_dict W c' = [(0, ((- x0)%Q, (- y0)%Q, z0))] ->
    exists hs hs', runs W fuel u0 lorenz_node c T g hs /\ runs W fuel u0 lorenz_node c' T g hs' /\
      forall k S S', nth_error hs k = Some S -> nth_error hs' k = Some S' -> exists x y z q, dget S 0 = Some (x, y, z) /\ dget S' 0 = Some q /\ same q ((- x)%Q, (- y)%Q, z).
  Proof.
    intros W fuel u0 a b r dt x0 y0 z0 c c' T g Hst HT Hf Hc Hc'.
    destruct (one_run W fuel u0 a b r dt _ c T g Hst HT Hf Hc) as (hs & Hrun & Hk). destruct (one_run W fuel u0 a b r dt _ c' T g Hst HT Hf Hc') as (hs' & Hrun' & Hk').
    exists hs, hs'. split; [assumption|]. split; [assumption|]. intros k S S' E E'. rewrite (Hk k S E), (Hk' k S' E'). clear.
    assert (Hs : exists x y z, Nat.iter k (euler a b r dt) (x0, y0, z0) = (x, y, z) /\ same (Nat.iter k (euler a b r dt) ((- x0)%Q, (- y0)%Q, z0)) ((- x)%Q, (- y)%Q, z)).
    { induction k as [|k (x & y & z & E & Hs)]; [exists x0, y0, z0; split; [reflexivity|repeat split; reflexivity]|].
      change (Nat.iter (Datatypes.S k) (euler a b r dt) (x0, y0, z0)) with (euler a b r dt (Nat.iter k (euler a b r dt) (x0, y0, z0))).
      change (Nat.iter (Datatypes.S k) (euler a b r dt) ((- x0)%Q, (- y0)%Q, z0)) with (euler a b r dt (Nat.iter k (euler a b r dt) ((- x0)%Q, (- y0)%Q, z0))). rewrite E. cbn [euler]. do 3 eexists. split; [reflexivity|].
      eapply same_trans; [apply euler_same, Hs|]. unfold same. cbn. repeat split; ring. }
    destruct Hs as (x & y & z & E & Hs). exists x, y, z. eexists. cbn [dget]. rewrite E. split; [reflexivity|]. split; [reflexivity|assumption].
  Qed.

  (** C98: the demo that uses one node per coordinate computes the same trajectory *)
  Theorem C98_agree : forall (W1 : env1) (W3 : env3) fuel fuel' (u0 : U) (u0' : U') a b r dt x0 y0 z0 c1 c3 T (g1 : args1) (g3 : args3),
    static g1 (stateless (lorenz_rule a b r dt)) -> static g3 (stateless (lorenz_node_rule dt)) -> 1 <= T -> (Z.to_nat T <= fuel)%nat -> (Z.to_nat T <= fuel')%nat ->
    to_dict W1 c1 = [(0, (x0, y0, z0))] ->
    length (to_dict W3 c3) = 3%nat -> dget (to_dict W3 c3) "x" = Some x0 -> dget (to_dict W3 c3) "y" = Some y0 -> dget (to_dict W3 c3) "z" = Some z0 ->
    exists net hs1 hs3, lorenz_network a b r = (net, Ok tt) /\ runs W1 fuel u0 lorenz_node c1 T g1 hs1 /\ runs W3 fuel' u0' net c3 T g3 hs3 /\
      forall k S1 S3, nth_error hs1 k = Some S1 -> nth_error hs3 k = Some S3 ->
        exists p x y z, dget S1 0 = Some p /\ dget S3 "x" = Some x /\ dget S3 "y" = Some y /\ dget S3 "z" = Some z /\ same p (x, y, z).
  Proof.
    intros W1 W3 fuel fuel' u0 u0' a b r dt x0 y0 z0 c1 c3 T g1 g3 Hst1 Hst3 HT Hf Hf' Hc1 Hl3 Hx Hy Hz.
    destruct (one_run W1 fuel u0 a b r dt _ c1 T g1 Hst1 HT Hf Hc1) as (hs1 & Hrun1 & Hk1).
    assert (En : exists net, lorenz_network a b r = (net, Ok tt) /\ nodes net = ["x"; "y"; "z"] /\ net_rot net = None /\
      in_edges net "x" = Ok [("x", [[("weight", a)]]); ("y", [[("weight", a)]])] /\ in_edges net "y" = Ok [("x", [[("weight", r)]]); ("z", [[("weight", 1%Q)]]); ("y", [[("weight", 1%Q)]])] /\
      in_edges net "z" = Ok [("x", [[("weight", 1%Q)]]); ("y", [[("weight", 1%Q)]]); ("z", [[("weight", b)]])]) by (exists (fst (lorenz_network a b r)); split; [|split; [|split; [|split; [|split]]]]; vm_compute; reflexivity).
    destruct En as (net & En & Hnodes & Hrot & Ix & Iy & Iz).
    set (F := fun (v : string) (s : string -> Q) => if eqb v "x" then (s "x" + (a * s "y" - a * s "x") * dt)%Q else if eqb v "y" then (s "y" + (r * s "x" - 1 * s "y" - s "x" * 1 * s "z") * dt)%Q
                          else (s "z" + (1 * s "x" * 1 * s "y" - b * s "z") * dt)%Q).
    set (s0 := fun v => if eqb v "x" then x0 else if eqb v "y" then y0 else z0).
    assert (Hnb : forall v inc, in_edges net v = Ok inc -> nbrs_of net v (map fst inc)) by (intros v inc Ei; unfold nbrs_of; rewrite Hrot; exists inc; auto).
    destruct (field_run W3 fuel' u0' net c3 T g3 (lorenz_node_rule dt) F s0 Hst3) as (hs3 & Hrun3 & Hz3 & Hkeys3 & Hk3); [|exact HT|exact Hf'| | | | |].
    - rewrite Hnodes. repeat constructor; cbn; intuition discriminate.
    - assert (El : length (nodes net) = net_len net) by (unfold nodes, dkeys, net_len; apply map_length). rewrite <- El, Hnodes, Hl3. reflexivity.
    - intros v Hv. rewrite Hnodes in Hv. unfold incl. rewrite Hnodes. destruct Hv as [<-|[<-|[<-|[]]]].
      + eexists. eexists. split; [exact Ix|]. split; [apply Hnb; exact Ix|]. intros w Hw. clear - Hw. cbn in *. tauto.
      + eexists. eexists. split; [exact Iy|]. split; [apply Hnb; exact Iy|]. intros w Hw. clear - Hw. cbn in *. tauto.
      + eexists. eexists. split; [exact Iz|]. split; [apply Hnb; exact Iz|]. intros w Hw. clear - Hw. cbn in *. tauto.
    - intros v Hv. rewrite Hnodes in Hv. destruct Hv as [<-|[<-|[<-|[]]]]; [exact Hx|exact Hy|exact Hz].
    - intros S s t past v x Hs Hv Hctx. assert (Hv' := Hv). rewrite Hnodes in Hv'. destruct Hctx as [El _ Ea _ _ Econn Ecur _ _]. rewrite (Hs v Hv) in Ecur. injection Ecur as Ecur.
      assert (Hact : forall w, In w ["x"; "y"; "z"] -> activity_of x w = Ok (s w)) by (intros w Hw; unfold activity_of; rewrite Ea, (Hs w); [reflexivity|rewrite Hnodes; assumption]).
      unfold lorenz_node_rule, edge_data. rewrite El. unfold F. destruct Hv' as [<-|[<-|[<-|[]]]].
      + rewrite Ix in Econn. injection Econn as Econn. rewrite <- Econn, <- Ecur. rewrite Hact by (cbn; tauto). reflexivity.
      + rewrite Iy in Econn. injection Econn as Econn. rewrite <- Econn, <- Ecur. rewrite !Hact by (cbn; tauto). reflexivity.
      + rewrite Iz in Econn. injection Econn as Econn. rewrite <- Econn, <- Ecur. rewrite !Hact by (cbn; tauto). reflexivity.
    - exists net, hs1, hs3. split; [assumption|]. split; [assumption|]. split; [assumption|]. intros k S1 S3 E1 E3. rewrite (Hk1 k S1 E1).
      set (s := field_state F k s0). pose proof (Hk3 k S3 E3) as Hs. fold s in Hs. exists (Nat.iter k (euler a b r dt) (x0, y0, z0)), (s "x"), (s "y"), (s "z").
      split; [reflexivity|]. split; [apply Hs; rewrite Hnodes; cbn; tauto|]. split; [apply Hs; rewrite Hnodes; cbn; tauto|]. split; [apply Hs; rewrite Hnodes; cbn; tauto|].
      unfold s. clear. induction k as [|k IH]; [repeat split; reflexivity|].
      change (Nat.iter (S k) (euler a b r dt) (x0, y0, z0)) with (euler a b r dt (Nat.iter k (euler a b r dt) (x0, y0, z0))). eapply same_trans; [apply euler_same, IH|].
      rewrite field_state_S. set (f := field_state F k s0). unfold F. cbn. unfold same. cbn. repeat split; ring.
  Qed.
End Theorems.
Print Assumptions C98_euler.
Print Assumptions C98_symmetry.
Print Assumptions C98_agree.

(** ** Examples: the parameters and initial conditions of both demos *)
Definition W1 : env Z Q point unit unit := mkEnv Z.of_nat Some (fun _ => 0%Q) (fun _ => Err Unmodelled) (fun _ => Err Unmodelled) (fun _ => Err Unmodelled) (fun _ => Err Unmodelled).
Definition W3 : env string Q Q unit unit := mkEnv (fun _ => "") (fun _ => None) (fun _ => 0%Q) (fun _ => Err Unmodelled) (fun _ => Err Unmodelled) (fun _ => Err Unmodelled) (fun _ => Err Unmodelled).
Definition zargs1 : @args Z Q point unit unit := mkArgs (Some (stateless (lorenz_rule 10 (8 # 3) 28 (1 # 200)))) None None [] ACTIVITIES_FIRST true false true false false None.
Definition zargs3 : @args string Q Q unit unit := mkArgs (Some (stateless (lorenz_node_rule (1 # 200)))) None None [] ACTIVITIES_FIRST true false true false false None.
Example C98_example : exists net hs1 hs3, lorenz_network 10 (8 # 3) 28 = (net, Ok tt) /\ runs W1 4500 tt lorenz_node (CDict [(0, (1, 1, 1)%Q)]) 4500 zargs1 hs1 /\
  runs W3 4500 tt net (CDict [("x", 1%Q); ("y", 1%Q); ("z", 1%Q)]) 4500 zargs3 hs3 /\
  forall k S1 S3, nth_error hs1 k = Some S1 -> nth_error hs3 k = Some S3 ->
    exists p x y z, dget S1 0 = Some p /\ dget S3 "x" = Some x /\ dget S3 "y" = Some y /\ dget S3 "z" = Some z /\ same p (x, y, z).
Proof. apply (C98_agree W1 W3 4500 4500 tt tt 10 (8 # 3) 28 (1 # 200) 1 1 1); try reflexivity; try lia; repeat split. Qed.
(** the first step from (1, 1, 1), and an equilibrium *)
Example C98_first_step : same (euler 10 (8 # 3) 28 (1 # 200) (1, 1, 1)%Q) (1, 1 + (26 # 200), 1 - (1 # 120))%Q.
Proof. vm_compute. auto. Qed.
Example C98_equilibrium : same (euler 10 (1 # 4) 2 (1 # 200) (1 # 2, 1 # 2, 1)%Q) (1 # 2, 1 # 2, 1)%Q.
Proof. vm_compute. auto. Qed.
