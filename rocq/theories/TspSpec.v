(** * TspSpec: Euclidean distances, largest entries, tours, and the Hopfield-Tank equation *)
From Coq Require Import Reals.
From Verif Require Import Py.
Open Scope list_scope.
Open Scope Z_scope.

Notation point := (R * R)%type.
Definition origin : point := (0%R, 0%R).
(** point i *)
Definition pt (points : list point) (i : Z) : point := nth (Z.to_nat i) points origin.
Definition euclid (p q : point) : R := sqrt (Rsqr (fst p - fst q) + Rsqr (snd p - snd q)).

Definition Rtotal (l : list R) : R := fold_right Rplus 0%R l.
(** the sum of f over 0 .. n-1 *)
Definition Rsum_upto (n : Z) (f : Z -> R) : R := Rtotal (map f (zrange 0 n)).

(** k is the first position of a largest entry of the row *)
Definition is_argmax (row : list R) (k : Z) : Prop :=
  exists v, 0 <= k /\ nth_error row (Z.to_nat k) = Some v /\
    forall i x, nth_error row i = Some x -> (x <= v)%R /\ (Z.of_nat i < k -> (x < v)%R).

(** consecutive on the closed tour that visits the points in the order of the list *)
Definition follows (tour : list Z) (u v : Z) : Prop :=
  exists k, (k < length tour)%nat /\ nth_error tour k = Some u /\ nth_error tour (Nat.modulo (k + 1) (length tour)) = Some v.
(** the length of the closed tour *)
Definition tour_length (points : list point) (tour : list Z) : R :=
  Rtotal (map (fun uv => euclid (pt points (fst uv)) (pt points (snd uv))) (combine tour (skipn 1 tour ++ firstn 1 tour))).

(** Hopfield and Tank 1985, equation of motion, one Euler step; u r c is the input of the unit for point r at position c, V its output;
    the matrix of outputs has n rows and n columns *)
Section Equation.
  Variables (n : Z) (V : R -> R) (d : Z -> Z -> R) (dt A B C D target : R).
  Definition out (u : Z -> Z -> R) (r c : Z) : R := V (u r c).
  Definition next (u : Z -> Z -> R) (r c : Z) : R :=
    (u r c + dt * (- u r c
      - A * (Rsum_upto n (fun j => if Z.eq_dec j c then 0 else out u r j))
      - B * (Rsum_upto n (fun i => if Z.eq_dec i r then 0 else out u i c))
      - C * (Rsum_upto n (fun i => Rsum_upto n (fun j => out u i j)) - target)
      - D * (Rsum_upto n (fun y => d r y * (out u y ((c + 1) mod n) + out u y ((c - 1) mod n))))))%R.
End Equation.
