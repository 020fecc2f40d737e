(** Specification for demos/restricted_boltzmann_machine: the Boltzmann distribution of the machine, and alternating sampling from its conditional distributions. *)
From Coq Require Import Reals ZArith List.
Import ListNotations.
Open Scope list_scope.
Open Scope R_scope.

Definition total (l : list R) : R := fold_right Rplus 0 l.
Definition product (l : list R) : R := fold_right Rmult 1 l.
(** all lists of [n] zeros and ones *)
Fixpoint bits (n : nat) : list (list Z) :=
  match n with O => [[]] | S n => map (cons 0%Z) (bits n) ++ map (cons 1%Z) (bits n) end.
Definition dot (l : list R) (x : list Z) : R := total (map (fun p => fst p * IZR (snd p)) (combine l x)).

Section Boltzmann.
  (** [W]: one row of weights for each hidden unit; [b], [c]: the biases of the visible and of the hidden units *)
  Context (W : list (list R)) (b c : list R).
  Notation nv := (length b).
  Notation nh := (length c).

  (** minus the energy of a state *)
  Definition score (v h : list Z) : R := dot b v + dot c h + total (map (fun p => IZR (snd p) * dot (fst p) v) (combine W h)).
  Definition boltzmann (v h : list Z) : R := exp (score v h).
  Definition on (i : nat) (x : list Z) : bool := Z.eqb (nth i x 0%Z) 1.

  (** the probability that a unit is on when the other layer is known *)
  Definition hidden_on (v : list Z) (i : nat) : R := total (map (boltzmann v) (filter (on i) (bits nh))) / total (map (boltzmann v) (bits nh)).
  Definition visible_on (h : list Z) (j : nat) : R := total (map (fun v => boltzmann v h) (filter (on j) (bits nv))) / total (map (fun v => boltzmann v h) (bits nv)).

  (** the distribution, and what one round of independent sampling does *)
  Definition partition : R := total (map (fun v => total (map (boltzmann v) (bits nh))) (bits nv)).
  Definition prob (v h : list Z) : R := boltzmann v h / partition.
  Definition bernoulli (p : R) (x : Z) : R := if Z.eqb x 1 then p else 1 - p.
  Definition hidden_kernel (v h' : list Z) : R := product (map (fun i => bernoulli (hidden_on v i) (nth i h' 0%Z)) (seq 0 nh)).
  Definition visible_kernel (h v' : list Z) : R := product (map (fun j => bernoulli (visible_on h j) (nth j v' 0%Z)) (seq 0 nv)).

  (** alternating sampling: [coin k p] is the k-th toss of a coin that shows 1 with probability [p]; [vpos] and [hpos] are the orders in which the units are visited *)
  Context (coin : nat -> R -> Z) (vpos hpos : nat -> nat).
  (** the number of tosses before step [t] *)
  Definition tosses (t : nat) : nat := (t / 2) * nh + ((t - 1) / 2) * nv.
  Fixpoint machine (v0 : list Z) (t : nat) : list Z * list Z :=
    match t with
    | O => (v0, repeat 0%Z nh)
    | S k => let (v, h) := machine v0 k in
             if Nat.odd t then (v, map (fun i => coin (tosses t + hpos i)%nat (hidden_on v i)) (seq 0 nh))
             else (map (fun j => coin (tosses t + vpos j)%nat (visible_on h j)) (seq 0 nv), h)
    end.
End Boltzmann.
