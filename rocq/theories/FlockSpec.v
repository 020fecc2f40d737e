(** Specification for demos/flocking: who watches whom, and how a flock moves. *)
From Verif Require Import Py.
Open Scope list_scope.
Open Scope Z_scope.

Section FlockSpec.
  Context {A : Type} (visible : A -> A -> bool) (move : A -> list A -> A).

  (** whom boid [j] watches when the boids are in the states [st], having watched [old]: those of [old] that it still sees, in the old order,
      then the boids with smaller numbers that have come into view *)
  Definition watch (st : Z -> A) (j : Z) (old : list Z) : list Z :=
    filter (fun i => visible (st i) (st j)) old ++ filter (fun i => visible (st i) (st j) && negb (existsb (Z.eqb i) old)) (zrange 0 j).

  (** the flock after [k] steps: the states, and whom each boid watches *)
  Fixpoint flock (st0 : Z -> A) (k : nat) : (Z -> A) * (Z -> list Z) :=
    match k with
    | O => (st0, fun _ => [])
    | S k => let (st, old) := flock st0 k in
             let now := fun j => watch st j (old j) in
             (fun j => move (st j) (map st (now j)), now)
    end.
  Definition boid st0 k := fst (flock st0 k).
  Definition watched st0 k := snd (flock st0 k).

  (** for how many steps, up to step [k], [i] and [j] have been seeing each other without interruption *)
  Fixpoint streak (st0 : Z -> A) (i j : Z) (k : nat) : nat :=
    match k with
    | O => O
    | S k => if visible (boid st0 k i) (boid st0 k j) then S (streak st0 i j k) else O
    end.
End FlockSpec.
