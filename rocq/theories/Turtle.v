(** * Turtle: model of netomaton/turtle.py:7-78. Floats are reals; plot and animate are not modelled. *)
From Coq Require Import Reals.
From Verif Require Import Py.
Open Scope R_scope.

(** turtle.py:17-21. A line of the trajectory is ([x1, x2], [y1, y2]); the stack's last element is its top, here the head. *)
Record turtle := mkTurtle { t_x : R; t_y : R; t_orientation : R; t_trajectory : list ((R * R) * (R * R)); t_stack : list (R * R * R) }.
Definition new_turtle (start_x start_y start_orientation : R) : turtle := mkTurtle start_x start_y start_orientation [] [].

(** math.radians *)
Definition radians (degrees : R) : R := degrees * (PI / 180).

(** turtle.py:23-38 *)
Definition forward (distance : R) (t : turtle) : turtle :=
  let angle := radians (t_orientation t) in
  let new_x := sin angle * distance + t_x t in
  let new_y := cos angle * distance + t_y t in
  let p1 := (t_x t, t_y t) in
  let p2 := (new_x, new_y) in
  let x_values := (fst p1, fst p2) in
  let y_values := (snd p1, snd p2) in
  mkTurtle new_x new_y (t_orientation t) (t_trajectory t ++ [(x_values, y_values)]) (t_stack t).

(** turtle.py:40-47 *)
Definition rotate (degrees : R) (t : turtle) : turtle := mkTurtle (t_x t) (t_y t) (t_orientation t + degrees) (t_trajectory t) (t_stack t).

(** turtle.py:49-53 *)
Definition push (t : turtle) : turtle := mkTurtle (t_x t) (t_y t) (t_orientation t) (t_trajectory t) ((t_x t, t_y t, t_orientation t) :: t_stack t).

(** turtle.py:55-63; list.pop of an empty list raises IndexError *)
Definition pop (t : turtle) : res turtle :=
  match t_stack t with
  | [] => Err IndexError
  | (x, y, orientation) :: rest => Ok (mkTurtle x y orientation (t_trajectory t) rest)
  end.

(** turtle.py:65-72, 74-81 *)
Definition pos (t : turtle) : R * R := (t_x t, t_y t).
Definition turtle_abs (t : turtle) : R := sqrt (t_x t ^ 2 + t_y t ^ 2).

(** a sequence of method calls *)
Inductive cmd := Forward (distance : R) | Rotate (degrees : R) | Push | Pop.
Definition step (t : turtle) (c : cmd) : res turtle :=
  match c with Forward d => Ok (forward d t) | Rotate a => Ok (rotate a t) | Push => Ok (push t) | Pop => pop t end.
Definition run (cs : list cmd) (t : turtle) : res turtle := rfold step cs t.
