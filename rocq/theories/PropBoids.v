(** Property theorems for the rules of demos/flocking over the real numbers (C109): averages, limits of speed, and a boid that no wall turns round. *)
From Verif Require Import Py PyFacts ListFacts Network NetMult Evolve EvolveSpec EvolveStatic FlockSpec Flock FlockProofs PropFlock.
From Coq Require Import Reals Lra Psatz.
From Verif Require Import Boids BoidSpec.
Open Scope list_scope.
Open Scope R_scope.

Section Rule.
  Context (p : params).

  Lemma look_all a nbrs : forall t, fold_left (look p (px a) (py a)) nbrs t =
    mkTally (x_avg t + Rsum (map px (farther p a nbrs))) (y_avg t + Rsum (map py (farther p a nbrs))) (vx_avg t + Rsum (map vx (farther p a nbrs))) (vy_avg t + Rsum (map vy (farther p a nbrs)))
      (close_dx t + Rsum (map (fun b => px a - px b) (close_to p a nbrs))) (close_dy t + Rsum (map (fun b => py a - py b) (close_to p a nbrs))) (visual_boids t + length (farther p a nbrs)).
  Proof.
    induction nbrs as [|b nbrs IH]; intros t.
    - cbn. rewrite !Rplus_0_r, Nat.add_0_r. destruct t. reflexivity.
    - cbn [fold_left]. rewrite IH. unfold look, farther, close_to, is_close. cbn [filter]. destruct (Rlt_dec _ _); cbn [negb x_avg y_avg vx_avg vy_avg close_dx close_dy visual_boids map length]; unfold Rsum; cbn [fold_right]; rewrite <- ?Rplus_assoc, ?Nat.add_succ_r, ?Nat.add_succ_l; reflexivity.
  Qed.

  Lemma Rsum_nil : Rsum [] = 0. Proof. reflexivity. Qed.

  Lemma fly_eq a nbrs : fly p a nbrs =
    let u := wish p px vx a nbrs in let v := wish p py vy a nbrs in let s := wish_speed p a nbrs in
    uv <- (if Rlt_dec s (min_speed p) then rescale s (min_speed p) (u, v) else Ok (u, v)) ;;
    uv <- (if Rlt_dec (max_speed p) s then rescale s (max_speed p) uv else Ok uv) ;;
    Ok (mkBoid (px a + fst uv) (py a + snd uv) (fst uv) (snd uv)).
  Proof.
    unfold fly, wish_speed. rewrite look_all. cbn [x_avg y_avg vx_avg vy_avg close_dx close_dy visual_boids]. rewrite !Rplus_0_l, Nat.add_0_l.
    set (f := farther p a nbrs). set (c := close_to p a nbrs).
    destruct (Nat.ltb_spec 0 (length f)) as [Hf|Hf].
    - assert (Eu : forall pos vel : state -> R, forall z, z = wall p (pos a) ->
        vel a + (Rsum (map pos f) / INR (length f) - pos a) * centering_factor p + (Rsum (map vel f) / INR (length f) - vel a) * matching_factor p + Rsum (map (fun b => pos a - pos b) c) * avoid_factor p + z = wish p pos vel a nbrs).
      { intros pos vel z ->. unfold wish. fold f. fold c. destruct (Nat.eqb_spec (length f) 0); [lia|]. unfold mean. rewrite !map_length. ring. }
      cbv zeta. rewrite <- (Eu px vx (wall p (px a)) eq_refl), <- (Eu py vy (wall p (py a)) eq_refl).
      unfold wall. destruct (Rlt_dec 450 (px a)), (Rlt_dec 450 (py a)), (Rlt_dec (px a) 50), (Rlt_dec (py a) 50); try lra; rewrite ?Rplus_0_r; reflexivity.
    - assert (Eu : forall pos vel : state -> R, forall z, z = wall p (pos a) -> vel a + Rsum (map (fun b => pos a - pos b) c) * avoid_factor p + z = wish p pos vel a nbrs).
      { intros pos vel z ->. unfold wish. fold f. fold c. destruct (Nat.eqb_spec (length f) 0); [|lia]. ring. }
      cbv zeta. rewrite <- (Eu px vx (wall p (px a)) eq_refl), <- (Eu py vy (wall p (py a)) eq_refl).
      unfold wall. destruct (Rlt_dec 450 (px a)), (Rlt_dec 450 (py a)), (Rlt_dec (px a) 50), (Rlt_dec (py a) 50); try lra; rewrite ?Rplus_0_r; reflexivity.
  Qed.

  Context (Hmin : 0 < min_speed p) (Hmax : min_speed p <= max_speed p).

  Lemma sum_squares x y : 0 <= x * x + y * y. Proof. nra. Qed.
  Lemma wish_speed_pos a nbrs : ~ stalls p a nbrs -> 0 < wish_speed p a nbrs.
  Proof.
    intros Hs. unfold wish_speed, stalls in *. set (u := wish p px vx a nbrs) in *. set (v := wish p py vy a nbrs) in *. apply sqrt_lt_R0.
    destruct (Req_EM_T u 0) as [E|E]; [|nra]. destruct (Req_EM_T v 0) as [E'|E']; [tauto|nra].
  Qed.

  Lemma fly_move a nbrs : ~ stalls p a nbrs -> fly p a nbrs = Ok (move p a nbrs).
  Proof.
    intros Hs. apply wish_speed_pos in Hs. rewrite fly_eq. cbv zeta. unfold move, limited. set (s := wish_speed p a nbrs) in *. set (u := wish p px vx a nbrs). set (v := wish p py vy a nbrs).
    unfold rescale. destruct (Req_EM_T s 0); [lra|].
    destruct (Rlt_dec s (min_speed p)) as [H1|H1]; destruct (Rlt_dec (max_speed p) s) as [H2|H2]; try lra; cbn [rbind fst snd].
    - rewrite (Rmin_right (max_speed p) s), (Rmax_left (min_speed p) s) by lra. replace (min_speed p / s * u) with (u / s * min_speed p) by (field; assumption). replace (min_speed p / s * v) with (v / s * min_speed p) by (field; assumption). reflexivity.
    - rewrite (Rmin_left (max_speed p) s), (Rmax_right (min_speed p) (max_speed p)) by lra. replace (max_speed p / s * u) with (u / s * max_speed p) by (field; assumption). replace (max_speed p / s * v) with (v / s * max_speed p) by (field; assumption). reflexivity.
    - rewrite (Rmin_right (max_speed p) s), (Rmax_right (min_speed p) s) by lra. replace (s / s * u) with u by (field; assumption). replace (s / s * v) with v by (field; assumption). reflexivity.
  Qed.
  Lemma fly_stalls a nbrs : stalls p a nbrs -> fly p a nbrs = Err Unmodelled.
  Proof.
    intros [E1 E2]. rewrite fly_eq. cbv zeta. unfold wish_speed. rewrite E1, E2. replace (0 * 0 + 0 * 0) with 0 by ring. rewrite sqrt_0.
    destruct (Rlt_dec 0 (min_speed p)); [|lra]. unfold rescale. destruct (Req_EM_T 0 0); [reflexivity|lra].
  Qed.
  Lemma speed_move a nbrs : ~ stalls p a nbrs -> speed (move p a nbrs) = Rmax (min_speed p) (Rmin (max_speed p) (wish_speed p a nbrs)).
  Proof.
    intros Hs. apply wish_speed_pos in Hs. unfold speed, move. cbn [vx vy]. set (c := limited p a nbrs). set (s := wish_speed p a nbrs) in *. set (u := wish p px vx a nbrs). set (v := wish p py vy a nbrs).
    replace (c * u * (c * u) + c * v * (c * v)) with ((c * c) * (u * u + v * v)) by ring.
    assert (Hm : 0 < Rmax (min_speed p) (Rmin (max_speed p) s)) by (eapply Rlt_le_trans; [exact Hmin|apply Rmax_l]).
    assert (Hc : 0 <= c) by (unfold c, limited; fold s; apply Rlt_le, Rdiv_lt_0_compat; assumption).
    rewrite sqrt_mult by nra. rewrite sqrt_square by assumption. change (sqrt (u * u + v * v)) with s. unfold c, limited. fold s. field. lra.
  Qed.
End Rule.

(** C109: the activity rule is the wish of the boid with its speed limited; only a wish of speed zero has no result *)
Theorem C109_rule : forall p a nbrs, 0 < min_speed p -> min_speed p <= max_speed p ->
  (~ stalls p a nbrs -> fly p a nbrs = Ok (move p a nbrs)) /\ (stalls p a nbrs -> fly p a nbrs = Err Unmodelled).
Proof. intros p a nbrs Hmin Hmax. split; [apply fly_move; assumption|apply fly_stalls; assumption]. Qed.
Print Assumptions C109_rule.

(** C109: the speed of a boid that has moved is within the limits, it points along the wish, and the boid has moved by its velocity *)
Theorem C109_speed : forall p a nbrs b, 0 < min_speed p -> min_speed p <= max_speed p -> fly p a nbrs = Ok b ->
  min_speed p <= speed b <= max_speed p /\ px b - px a = vx b /\ py b - py a = vy b /\
  exists c, 0 < c /\ vx b = c * wish p px vx a nbrs /\ vy b = c * wish p py vy a nbrs.
Proof.
  intros p a nbrs b Hmin Hmax E.
  assert (Hs : ~ stalls p a nbrs) by (intros Hs; rewrite (fly_stalls p Hmin) in E by assumption; discriminate).
  rewrite (fly_move p Hmax) in E by assumption. injection E as <-. rewrite (speed_move p Hmin) by assumption. split.
  - split; [apply Rmax_l|]. apply Rmax_lub; [assumption|apply Rmin_l].
  - split; [cbn; ring|]. split; [cbn; ring|]. exists (limited p a nbrs). split; [|split; reflexivity].
    unfold limited. apply Rdiv_lt_0_compat; [eapply Rlt_le_trans; [exact Hmin|apply Rmax_l]|apply wish_speed_pos; assumption].
Qed.
Print Assumptions C109_speed.

Section Run.
  Context {V U I BA BN : Type} (W : env Z V state BA BN) (p : params).

  (** the boids of the specification from the list of the states at the start *)
  Definition start (boids : list state) (v : Z) : state := nth (Z.to_nat v) boids (mkBoid 0 0 0 0).
  Notation boid boids := (boid (visible p) (move p) (start boids)).
  Notation watched boids := (watched (visible p) (move p) (start boids)).
  (** no boid ever wants to stand still *)
  Definition never_stalls (boids : list state) (from T : Z) : Prop := forall k v, (Z.of_nat k + 1 < T)%Z -> (from <= v < Z.of_nat (length boids))%Z ->
    ~ stalls p (boid boids k v) (map (boid boids k) (watched boids (S k) v)).

  Lemma boids_run fuel (u0 : U) (boids : list state) T : boids <> [] -> (1 <= T)%Z -> (Z.to_nat T <= fuel)%nat -> min_speed p <= max_speed p -> never_stalls boids 0 T ->
    exists traj hs, flocking_demo (I:=I) (visible p) (fly p) W fuel u0 boids T = Ok (u0, traj) /\ Z.of_nat (length hs) = T /\
      Forall2 (fun s Sm => activities W s = Ok (shown_acts (fst Sm)) /\ state_network W s = Ok (shown_net (snd Sm))) traj hs /\
      forall k S m, nth_error hs k = Some (S, m) -> map fst S = zrange 0 (Z.of_nat (length boids)) /\ forall v, (0 <= v < Z.of_nat (length boids))%Z -> dget S v = Some (boid boids k v).
  Proof.
    intros Hne HT Hfuel Hmax Hs. destruct (C109_flock (I:=I) W (visible p) (fly p) (move p) fuel u0 boids T (start boids) Hne HT Hfuel) as (traj & hs & E & Hl & Hf & Hat).
    - intros i a Ei. unfold start. rewrite Nat2Z.id. apply nth_error_nth. assumption.
    - intros k v Hk Hv nbrs. apply fly_move; [assumption|]. apply Hs; assumption.
    - exists traj, hs. split; [assumption|]. split; [assumption|]. split; [assumption|]. intros k S m Ek. destruct (Hat k S m Ek) as (HK & _ & HV & _). split; assumption.
  Qed.
End Run.

(** C109: on a run on which no boid wants to stand still, every boid has, from the first step on, a speed within the limits, and moves by its velocity *)
Theorem C109_boids : forall {V U I BA BN : Type} (W : env Z V state BA BN) p fuel (u0 : U) boids T,
  boids <> [] -> (1 <= T)%Z -> (Z.to_nat T <= fuel)%nat -> 0 < min_speed p -> min_speed p <= max_speed p -> never_stalls p boids 0 T ->
  exists traj hs, flocking_demo (I:=I) (visible p) (fly p) W fuel u0 boids T = Ok (u0, traj) /\ Z.of_nat (length hs) = T /\
    Forall2 (fun s S => activities W s = Ok (shown_acts S)) traj hs /\
    forall k S S' v, nth_error hs k = Some S -> nth_error hs (k + 1) = Some S' -> (0 <= v < Z.of_nat (length boids))%Z ->
      exists a b, dget S v = Some a /\ dget S' v = Some b /\ min_speed p <= speed b <= max_speed p /\ px b = px a + vx b /\ py b = py a + vy b.
Proof.
  intros V U I BA BN W p fuel u0 boids T Hne HT Hfuel Hmin Hmax Hs.
  destruct (boids_run (I:=I) W p fuel u0 boids T Hne HT Hfuel Hmax Hs) as (traj & hs & E & Hl & Hf & Hat).
  exists traj, (map fst hs). split; [assumption|]. split; [rewrite map_length; assumption|]. split.
  { clear - Hf. induction Hf as [|s Sm ts l [H1 _] Hl IH]; [constructor|]. cbn [map]. constructor; assumption. }
  intros k S S' v Ek Ek' Hv. rewrite nth_error_map in Ek, Ek'. destruct (nth_error hs k) as [[S1 m1]|] eqn:E1; [|discriminate]. injection Ek as <-.
  destruct (nth_error hs (k + 1)) as [[S2 m2]|] eqn:E2; [|discriminate]. injection Ek' as <-. cbn [fst].
  destruct (Hat _ _ _ E1) as [_ HV1]. destruct (Hat _ _ _ E2) as [_ HV2]. exists (boid (visible p) (move p) (start boids) k v), (boid (visible p) (move p) (start boids) (k + 1) v).
  split; [auto|]. split; [auto|]. rewrite Nat.add_1_r, boid_S. set (nb := map _ _).
  assert (Hk : (Z.of_nat k + 1 < T)%Z) by (assert ((k + 1 < length hs)%nat) by (apply nth_error_Some; congruence); lia).
  pose proof (Hs k v Hk Hv) as Hst. fold nb in Hst.
  destruct (C109_speed p _ nb _ Hmin Hmax (fly_move p Hmax _ nb Hst)) as (H1 & H2 & H3 & _). split; [assumption|]. split; lra.
Qed.
Print Assumptions C109_boids.

(** ** A boid that flies straight at the wall *)
Section Escape.
  Notation p := script_params.
  Notation boid boids := (boid (visible p) (move p) (start boids)).
  Notation watched boids := (watched (visible p) (move p) (start boids)).

  Lemma move_right a x : px a = x -> vy a = 0 -> 50 <= py a <= 450 -> 0 < vx a -> (450 < x -> 3 <= vx a) ->
    ~ stalls p a [] /\ exists c, move p a [] = mkBoid (x + c) (py a) c 0 /\ 3 <= c <= 4.
  Proof.
    intros Ex Evy Hy Hvx Hfar.
    assert (Ey : wish p py vy a [] = 0) by (unfold wish, wall; cbn; destruct (Rlt_dec 450 (py a)), (Rlt_dec (py a) 50); lra).
    assert (Eu : 0 < wish p px vx a []) by (unfold wish, wall; cbn; rewrite Ex; destruct (Rlt_dec 450 x) as [Hx|Hx]; [specialize (Hfar Hx)|destruct (Rlt_dec x 50)]; lra).
    assert (Hs : ~ stalls p a []) by (intros [H _]; lra). split; [assumption|].
    pose proof (speed_move p ltac:(cbn; lra) a [] Hs) as Hsp.
    exists (vx (move p a [])). unfold move in *. cbn [vx vy] in *. rewrite Ey in *. rewrite !Rmult_0_r, Rplus_0_r, Ex. split; [reflexivity|].
    unfold speed in Hsp. cbn [vx vy] in Hsp. rewrite Rmult_0_r, Rmult_0_r, Rplus_0_r in Hsp.
    assert (Hc : 0 < limited p a [] * wish p px vx a []).
    { apply Rmult_lt_0_compat; [|assumption]. unfold limited. apply Rdiv_lt_0_compat; [eapply Rlt_le_trans; [|apply Rmax_l]; cbn; lra|apply wish_speed_pos; assumption]. }
    rewrite sqrt_square in Hsp by lra. rewrite Hsp. split; [apply (Rmax_l 3)|]. apply Rmax_lub; [cbn; lra|apply (Rmin_l 4)].
  Qed.

  Lemma boid_right x y u rest k : 50 <= y <= 450 -> x <= 450 -> 0 < u -> let a := boid (mkBoid x y u 0 :: rest) k 0%Z in
    py a = y /\ vy a = 0 /\ 0 < vx a /\ (450 < px a -> 3 <= vx a) /\ x + 3 * INR k <= px a.
  Proof.
    intros Hy Hx Hu. set (bs := mkBoid x y u 0 :: rest). induction k as [|k IH]; cbv zeta in *.
    - unfold boid. cbn [flock fst]. unfold start, bs. change (Z.to_nat 0) with 0%nat. cbn [nth px py vx vy INR]. split; [reflexivity|]. split; [reflexivity|]. split; [lra|]. split; [intros; lra|lra].
    - destruct IH as (E1 & E2 & H3 & H4 & H5). rewrite boid_S.
      assert (Ew : watched bs (S k) 0%Z = []) by (destruct (watched bs (S k) 0%Z) as [|i l] eqn:E; [reflexivity|]; assert (Hi : In i (watched bs (S k) 0%Z)) by (rewrite E; left; reflexivity); apply watched_range in Hi; lia).
      rewrite Ew. cbn [map]. destruct (move_right (boid bs k 0%Z) _ eq_refl E2 ltac:(lra) H3 H4) as [_ (c & Ec & Hc)]. rewrite Ec. cbn [px py vx vy]. rewrite S_INR. split; [assumption|]. split; [reflexivity|]. split; [lra|]. split; [intros; lra|lra].
  Qed.

  (** C109: boid 0, started as the demo allows with [vx > 0] and [vy = 0], is never turned round by a wall, whatever the other boids do:
      it moves on by at least the minimum speed at every step *)
  Theorem C109_escape : forall {V U I BA BN : Type} (W : env Z V state BA BN) fuel (u0 : U) x y u rest T,
    50 <= y <= 450 -> x <= 450 -> 0 < u -> (1 <= T)%Z -> (Z.to_nat T <= fuel)%nat -> never_stalls p (mkBoid x y u 0 :: rest) 1 T ->
    exists traj hs, flocking_demo (I:=I) (visible p) (fly p) W fuel u0 (mkBoid x y u 0 :: rest) T = Ok (u0, traj) /\ Z.of_nat (length hs) = T /\
      Forall2 (fun s S => activities W s = Ok (shown_acts S)) traj hs /\
      forall k S, nth_error hs k = Some S -> exists a, dget S 0%Z = Some a /\ py a = y /\ x + 3 * INR k <= px a.
  Proof.
    intros V U I BA BN W fuel u0 x y u rest T Hy Hx Hu HT Hfuel Hs. set (bs := mkBoid x y u 0 :: rest) in *.
    assert (Hs0 : never_stalls p bs 0 T).
    { intros k v Hk Hv. destruct (Z.eq_dec v 0) as [->|Hv0]; [|apply Hs; [assumption|lia]].
      assert (Ew : watched bs (S k) 0%Z = []) by (destruct (watched bs (S k) 0%Z) as [|i l] eqn:E; [reflexivity|]; assert (Hi : In i (watched bs (S k) 0%Z)) by (rewrite E; left; reflexivity); apply watched_range in Hi; lia).
      rewrite Ew. cbn [map]. destruct (boid_right x y u rest k Hy Hx Hu) as (E1 & E2 & H3 & H4 & _). apply (move_right _ _ eq_refl E2 ltac:(fold bs in E1; fold bs; lra) H3 H4). }
    destruct (boids_run (I:=I) W p fuel u0 bs T ltac:(discriminate) HT Hfuel ltac:(cbn; lra) Hs0) as (traj & hs & E & Hl & Hf & Hat).
    exists traj, (map fst hs). split; [assumption|]. split; [rewrite map_length; assumption|]. split.
    { clear - Hf. induction Hf as [|s Sm ts l [H1 _] Hl IH]; [constructor|]. cbn [map]. constructor; assumption. }
    intros k S Ek. rewrite nth_error_map in Ek. destruct (nth_error hs k) as [[S1 m1]|] eqn:E1; [|discriminate]. injection Ek as <-. cbn [fst]. destruct (Hat _ _ _ E1) as [_ HV].
    exists (boid bs k 0%Z). split; [apply HV; cbn [length bs]; lia|]. destruct (boid_right x y u rest k Hy Hx Hu) as (H1 & _ & _ & _ & H5). split; assumption.
  Qed.
End Escape.
Print Assumptions C109_escape.

(** C109: the walls do not keep the boids in: from a state inside the ranges of the demo a single boid leaves every box *)
Theorem C109_confined_refuted : forall {V BA BN : Type} (W : env Z V state BA BN) B, exists a T fuel traj s S b,
  (10 <= px a <= 100 /\ 100 <= py a <= 200 /\ 0 <= vx a <= 1 /\ -2 <= vy a <= 2) /\
  flocking_demo (U:=unit) (I:=unit) (visible script_params) (fly script_params) W fuel tt [a] T = Ok (tt, traj) /\ In s traj /\ activities W s = Ok (Some S) /\ dget S 0%Z = Some b /\ B < px b.
Proof.
  intros V BA BN W B. set (N := Z.to_nat (up B)).
  assert (HN : B < INR N) by (destruct (archimed B) as [Hu _]; rewrite INR_IZR_INZ; eapply Rlt_le_trans; [exact Hu|]; apply IZR_le; unfold N; lia). clearbody N.
  destruct (C109_escape (U:=unit) (I:=unit) W (S N) tt 10 100 1 [] (Z.of_nat (S N))) as (traj & hs & E & Hl & Hf & Hat); try lra; try lia.
  { intros k v _ Hv. cbn [length] in Hv. lia. }
  destruct (nth_error hs N) as [S|] eqn:EN; [|apply nth_error_None in EN; lia]. destruct (Hat N S EN) as (b & Hb & _ & Hx).
  assert (Hs : exists s, In s traj /\ activities W s = Ok (shown_acts S)).
  { clear - Hf EN. revert N EN. induction Hf as [|s S' ts l H1 Hl IH]; intros [|N] EN; try discriminate; cbn [nth_error] in EN.
    - injection EN as ->. exists s. split; [left; reflexivity|assumption].
    - destruct (IH N EN) as (s' & Hin & E). exists s'. split; [right; assumption|assumption]. }
  destruct Hs as (s & Hin & Ea). exists (mkBoid 10 100 1 0), (Z.of_nat (Datatypes.S N)), (Datatypes.S N), traj, s, S, b. cbn [px py vx vy].
  split; [lra|]. split; [assumption|]. split; [assumption|]. split; [rewrite Ea; unfold shown_acts; destruct S; [discriminate|reflexivity]|]. split; [assumption|]. pose proof (pos_INR N). lra.
Qed.
Print Assumptions C109_confined_refuted.

(** two boids: the second is in the protected range of the first and flies away from it *)
Example C109_rule_ex : let a := mkBoid 103 104 0 3 in let b := mkBoid 100 100 1 1 in visible script_params b a = true /\ ~ stalls script_params a [b] /\ wish script_params px vx a [b] = 15 / 100 /\ wish script_params py vy a [b] = 3 + 20 / 100.
Proof.
  cbv zeta. assert (E : dist 100 100 103 104 = 5) by (unfold dist; replace ((100 - 103) * (100 - 103) + (100 - 104) * (100 - 104)) with (5 * 5) by ring; apply sqrt_square; lra).
  assert (E' : dist 103 104 100 100 = 5) by (unfold dist; replace ((103 - 100) * (103 - 100) + (104 - 100) * (104 - 100)) with (5 * 5) by ring; apply sqrt_square; lra).
  assert (Ew : wish script_params px vx (mkBoid 103 104 0 3) [mkBoid 100 100 1 1] = 15 / 100 /\ wish script_params py vy (mkBoid 103 104 0 3) [mkBoid 100 100 1 1] = 3 + 20 / 100).
  { unfold wish, farther, close_to, is_close, wall. cbn [filter px py vx vy protected_range turn_factor avoid_factor script_params]. rewrite E'. destruct (Rlt_dec 5 12); [|lra]. cbn [negb length Nat.eqb map Rsum fold_right px py].
    destruct (Rlt_dec 450 103), (Rlt_dec 103 50), (Rlt_dec 450 104), (Rlt_dec 104 50); lra. }
  destruct Ew as [E1 E2]. split; [unfold visible; cbn [px py visual_range script_params]; rewrite E; destruct (Rlt_dec 5 70); [reflexivity|lra]|].
  split; [intros [H _]; lra|]. split; assumption.
Qed.
