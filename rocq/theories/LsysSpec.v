(** * Context-free rewriting (0L-systems), independent of the program *)
From Coq Require Import Ascii List ZArith.
From Verif Require Import Py.
Import ListNotations.
Open Scope list_scope.
Open Scope Z_scope.

(** every letter is replaced by its successor word, [n] times *)
Fixpoint generation {C} (h : C -> list C) (n : nat) (w : list C) : list C :=
  match n with O => w | S n => flat_map h (generation h n w) end.

(** the number of occurrences *)
Fixpoint occurrences (c : ascii) (w : list ascii) : Z :=
  match w with [] => 0 | d :: w => (if ascii_dec c d then 1 else 0) + occurrences c w end.

(** ** drawing on the square lattice with a heading of length one *)
Inductive lmove := Ahead | Rightwards | Leftwards.
Definition point := (Z * Z)%type.
Record pen := mkPen { p_at : point; p_to : point }.
Definition right_of (u : point) : point := (snd u, - fst u).
Definition left_of (u : point) : point := (- snd u, fst u).
Definition add (p q : point) : point := (fst p + fst q, snd p + snd q).
Definition lstep (s : pen) (m : lmove) : pen :=
  match m with
  | Ahead => mkPen (add (p_at s) (p_to s)) (p_to s)
  | Rightwards => mkPen (p_at s) (right_of (p_to s))
  | Leftwards => mkPen (p_at s) (left_of (p_to s))
  end.
Definition pen_end (ms : list lmove) (s : pen) : pen := fold_left lstep ms s.
(** the drawn segments, in order, from start to end *)
Fixpoint segments (ms : list lmove) (s : pen) : list (point * point) :=
  match ms with
  | [] => []
  | m :: ms => (match m with Ahead => [(p_at s, add (p_at s) (p_to s))] | _ => [] end) ++ segments ms (lstep s m)
  end.
(** the points at which the pen has been: the first one, and the ends of the segments *)
Definition visited (ms : list lmove) (s : pen) : list point := p_at s :: map snd (segments ms s).
