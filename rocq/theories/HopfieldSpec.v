(** * Hebbian weights and the energy of a Hopfield net *)
From Verif Require Import Py.
Open Scope Z_scope.

(** component [i] of a pattern or state; 0 beyond its end *)
Definition at0 (v : list Z) (i : Z) : Z := nth (Z.to_nat i) v 0.

Definition hebb (P : list (list Z)) (i j : Z) : Z := if i =? j then 0 else zsum (map (fun p => at0 p i * at0 p j) P).

(** sum of [f] over 0 .. m-1 *)
Definition sum_upto (m : Z) (f : Z -> Z) : Z := zsum (map f (zrange 0 m)).

(** twice the energy of the state [v] *)
Definition energy2 (m : Z) (w : Z -> Z -> Z) (v : list Z) : Z := - sum_upto m (fun i => sum_upto m (fun j => w i j * at0 v i * at0 v j)).

Definition bipolar (v : list Z) : Prop := Forall (fun x => x = 1 \/ x = -1) v.

(** how often consecutive states differ *)
Fixpoint changes (vs : list (list Z)) : Z :=
  match vs with
  | v :: ((v' :: _) as rest) => (if list_eq_dec Z.eq_dec v v' then 0 else 1) + changes rest
  | _ => 0
  end.

(** the number of components in which two vectors differ *)
Definition hamming (m : Z) (p v : list Z) : Z := sum_upto m (fun i => if at0 p i =? at0 v i then 0 else 1).

(** sum of |w i j| *)
Definition total_weight (m : Z) (w : Z -> Z -> Z) : Z := sum_upto m (fun i => sum_upto m (fun j => Z.abs (w i j))).
