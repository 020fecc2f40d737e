(** * Second-order automata, told without networks, contexts or dicts *)
From Verif Require Import Py.
Open Scope list_scope.
Open Scope Z_scope.

Section SecondOrder.
  Context {L : Type} (nb : L -> list L) (f : Z -> L -> Z -> list Z -> Z) (p s : L -> Z).

  (** the states of time k-1 and time k; [p] is the state of time -1 and [s] that of time 0. The new state of a cell is what the rule
      of that time gives for the cell and its neighbours, xored with the state of the cell one step before *)
  Fixpoint orbit (k : nat) : (L -> Z) * (L -> Z) :=
    match k with
    | O => (p, s)
    | S k' => let '(before, now) := orbit k' in (now, fun v => Z.lxor (f (Z.of_nat k) v (now v) (map now (nb v))) (before v))
    end.
  Definition so_state (k : nat) : L -> Z := snd (orbit k).
  (** the states from time -1 on *)
  Definition so_from (k : nat) : L -> Z := match k with O => p | S k' => so_state k' end.
End SecondOrder.

(** the same rule at all times *)
Definition always {L} (f : L -> Z -> list Z -> Z) (t : Z) : L -> Z -> list Z -> Z := f.

(** the states of the cells 0 .. n-1, in order *)
Definition row (n : Z) (s : Z -> Z) : list Z := map s (zrange 0 n).
Definition rows (n : Z) (st : nat -> Z -> Z) (T : nat) : list (list Z) := map (fun k => row n (st k)) (seq 0 T).
