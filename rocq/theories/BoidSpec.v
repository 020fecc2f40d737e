(** Specification of the rule of a boid: averages, walls and limits of speed, over the real numbers. *)
From Coq Require Import Reals List.
From Verif Require Import Boids.
Import ListNotations.
Open Scope list_scope.
Open Scope R_scope.

Definition Rsum (l : list R) : R := fold_right Rplus 0 l.
Definition mean (l : list R) : R := Rsum l / INR (length l).

Section Spec.
  Context (p : params).

  (** the neighbours inside and outside the protected range *)
  Definition is_close (a b : state) : bool := if Rlt_dec (dist (px a) (py a) (px b) (py b)) (protected_range p) then true else false.
  Definition close_to (a : state) := filter (is_close a).
  Definition farther (a : state) := filter (fun b => negb (is_close a b)).

  (** the wall turns a coordinate above 450 down and one below 50 up *)
  Definition wall (z : R) : R := if Rlt_dec 450 z then - turn_factor p else if Rlt_dec z 50 then turn_factor p else 0.

  (** one component of the velocity that boid [a] wants ([pos] and [vel] select the component): towards the mean position and the mean velocity
      of the farther neighbours, away from the close ones, away from the walls *)
  Definition wish (pos vel : state -> R) (a : state) (nbrs : list state) : R :=
    let f := farther a nbrs in
    vel a + (if Nat.eqb (length f) 0 then 0 else centering_factor p * (mean (map pos f) - pos a) + matching_factor p * (mean (map vel f) - vel a))
          + avoid_factor p * Rsum (map (fun b => pos a - pos b) (close_to a nbrs)) + wall (pos a).
  Definition wish_speed (a : state) (nbrs : list state) : R := sqrt (wish px vx a nbrs * wish px vx a nbrs + wish py vy a nbrs * wish py vy a nbrs).

  (** the direction of the wish, with a speed between the limits *)
  Definition limited (a : state) (nbrs : list state) : R := Rmax (min_speed p) (Rmin (max_speed p) (wish_speed a nbrs)) / wish_speed a nbrs.
  Definition move (a : state) (nbrs : list state) : state :=
    let u := limited a nbrs * wish px vx a nbrs in
    let v := limited a nbrs * wish py vy a nbrs in
    mkBoid (px a + u) (py a + v) u v.

  Definition speed (a : state) : R := sqrt (vx a * vx a + vy a * vy a).
  (** a wish of speed zero has no direction *)
  Definition stalls (a : state) (nbrs : list state) : Prop := wish px vx a nbrs = 0 /\ wish py vy a nbrs = 0.
End Spec.
