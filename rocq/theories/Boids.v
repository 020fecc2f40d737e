(** Model of the rules of demos/flocking/flocking_demo.py over the real numbers (the demo computes with floats; rounding is not modelled). *)
From Verif Require Import Py Network Evolve Flock.
From Coq Require Import Reals.
Open Scope list_scope.
Open Scope R_scope.

(** flocking_demo.py:60-67, the parameters *)
Record params := mkParams { visual_range : R; protected_range : R; turn_factor : R; centering_factor : R; avoid_factor : R; matching_factor : R; max_speed : R; min_speed : R }.
Definition script_params : params := mkParams 70 12 2 (5 / 10000) (5 / 100) (5 / 100) 4 3.

(** flocking_demo.py:79-80, the state (x, y, vx, vy) of a boid *)
Record state := mkBoid { px : R; py : R; vx : R; vy : R }.
#[export] Instance EqD_state : EqD state.
Proof. intros [a b c d] [a' b' c' d']. destruct (Req_EM_T a a') as [->|]; [|right; congruence]. destruct (Req_EM_T b b') as [->|]; [|right; congruence]. destruct (Req_EM_T c c') as [->|]; [|right; congruence]. destruct (Req_EM_T d d') as [->|]; [left; reflexivity|right; congruence]. Defined.

(** np.linalg.norm of the difference of the positions, flocking_demo.py:89, 143 *)
Definition dist (x y x' y' : R) : R := sqrt ((x - x') * (x - x') + (y - y') * (y - y')).

(** flocking_demo.py:141-145 *)
Definition visible (p : params) (a b : state) : bool := if Rlt_dec (dist (px a) (py a) (px b) (py b)) (visual_range p) then true else false.

(** flocking_demo.py:86, the accumulators of the loop *)
Record tally := mkTally { x_avg : R; y_avg : R; vx_avg : R; vy_avg : R; close_dx : R; close_dy : R; visual_boids : nat }.

(** flocking_demo.py:88-99, one neighbour *)
Definition look (p : params) (x y : R) (t : tally) (b : state) : tally :=
  if Rlt_dec (dist x y (px b) (py b)) (protected_range p)
  then mkTally (x_avg t) (y_avg t) (vx_avg t) (vy_avg t) (close_dx t + (x - px b)) (close_dy t + (y - py b)) (visual_boids t)
  else mkTally (x_avg t + px b) (y_avg t + py b) (vx_avg t + vx b) (vy_avg t + vy b) (close_dx t) (close_dy t) (S (visual_boids t)).

(** flocking_demo.py:125-126, 128-129. A division by a speed of zero gives nan in numpy: not modelled *)
Definition rescale (speed s : R) (uv : R * R) : res (R * R) :=
  if Req_EM_T speed 0 then Err Unmodelled else Ok (fst uv / speed * s, snd uv / speed * s).

(** flocking_demo.py:83-131 *)
Definition fly (p : params) (a : state) (nbrs : list state) : res state :=
  let x := px a in let y := py a in
  let t := fold_left (look p x y) nbrs (mkTally 0 0 0 0 0 0 0) in
  let '(u, v) :=
    if (0 <? visual_boids t)%nat then
      let k := INR (visual_boids t) in
      (vx a + (x_avg t / k - x) * centering_factor p + (vx_avg t / k - vx a) * matching_factor p,
       vy a + (y_avg t / k - y) * centering_factor p + (vy_avg t / k - vy a) * matching_factor p)
    else (vx a, vy a) in
  let u := u + close_dx t * avoid_factor p in
  let v := v + close_dy t * avoid_factor p in
  let v := if Rlt_dec 450 y then v - turn_factor p else v in
  let u := if Rlt_dec 450 x then u - turn_factor p else u in
  let u := if Rlt_dec x 50 then u + turn_factor p else u in
  let v := if Rlt_dec y 50 then v + turn_factor p else v in
  let speed := sqrt (u * u + v * v) in
  uv <- (if Rlt_dec speed (min_speed p) then rescale speed (min_speed p) (u, v) else Ok (u, v)) ;;
  uv <- (if Rlt_dec (max_speed p) speed then rescale speed (max_speed p) uv else Ok uv) ;;
  Ok (mkBoid (x + fst uv) (y + snd uv) (fst uv) (snd uv)).
