(** * Specifications for the activity rules *)
From Verif Require Import Py.
Open Scope list_scope.
Open Scope Z_scope.

(** the number written by the digits [l] in base [b], most significant digit first *)
Fixpoint number (b : Z) (l : list Z) : Z :=
  match l with [] => 0 | d :: l' => d * b ^ Z.of_nat (length l') + number b l' end.

(** digit number [i] of [n] in base [b]; number 0 is the least significant one *)
Definition digit (b n i : Z) : Z := (n / b ^ i) mod b.

Definition is_bits (l : list Z) : Prop := Forall (fun b => b = 0 \/ b = 1) l.
Definition is_states (k : Z) (l : list Z) : Prop := Forall (fun s => 0 <= s < k) l.

(** how often [x] occurs in [l] *)
Fixpoint occurs (l : list Z) (x : Z) : nat :=
  match l with [] => 0%nat | y :: l' => ((if Z.eq_dec y x then 1 else 0) + occurs l' x)%nat end.
(** [x] occurs more often than every other value *)
Definition strict_mode (l : list Z) (x : Z) : Prop := In x l /\ forall y, In y l -> y <> x -> (occurs l y < occurs l x)%nat.
Definition most_frequent (l : list Z) (x : Z) : Prop := In x l /\ forall y, (occurs l y <= occurs l x)%nat.

(** ** Conway's Game of Life on a torus; cell (a, b) of a grid with [cols] columns is number a * cols + b *)
Definition alive (cols : Z) (S : dict Z Z) (p : Z * Z) : bool :=
  match dget S (fst p * cols + snd p) with Some x => x =? 1 | None => false end.
Definition eight (rows cols a b : Z) : list (Z * Z) :=
  map (fun d => ((a + fst d) mod rows, (b + snd d) mod cols))
      [(-1, -1); (-1, 0); (-1, 1); (0, -1); (0, 1); (1, -1); (1, 0); (1, 1)].
Definition conway (rows cols : Z) (S : dict Z Z) (a b : Z) : bool :=
  let living := length (filter (alive cols S) (eight rows cols a b)) in
  if alive cols S (a, b) then Nat.eqb living 2 || Nat.eqb living 3 else Nat.eqb living 3.
Definition grid01 (cells : Z) (S : dict Z Z) : Prop := forall v, 0 <= v < cells -> dget S v = Some 0 \/ dget S v = Some 1.
