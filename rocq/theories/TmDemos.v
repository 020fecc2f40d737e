(** * Model of the machines of demos/turing_machine: the rule tables of the demos; the machines themselves are in Turing.v *)
From Verif Require Import Py Turing.
Open Scope string_scope.
Open Scope list_scope.
Open Scope Z_scope.

(** turing_machine_demo1b.py:12, turing_machine_demo2b.py:12: the numbers of the cell states; the head states are q0 = 0 to q6 = 6 (line 11) *)
Definition blank : sym := SInt 0.
Definition cell_a : sym := SInt 1.
Definition cell_b : sym := SInt 2.
Definition cell_c : sym := SInt 3.
Definition cell_x : sym := SInt 4.
Definition cell_y : sym := SInt 5.
Definition cell_z : sym := SInt 6.

(** turing_machine_demo1b.py:14-78, turing_machine_demo2b.py:14-78 *)
Definition anbncn : dict Z (dict sym (Z * sym * Z)) :=
 [(0, [(cell_a, (1, cell_x, RIGHT));
       (blank,  (6, blank,  STAY));
       (cell_y, (4, cell_y, LEFT));
       (cell_b, (0, cell_b, STAY));
       (cell_c, (0, cell_c, STAY));
       (cell_x, (0, cell_x, STAY));
       (cell_z, (0, cell_z, STAY))]);
  (1, [(cell_b, (2, cell_y, RIGHT));
       (cell_y, (1, cell_y, RIGHT));
       (cell_a, (1, cell_a, RIGHT));
       (cell_c, (1, cell_c, STAY));
       (cell_x, (1, cell_x, STAY));
       (cell_z, (1, cell_z, STAY));
       (blank,  (1, blank,  STAY))]);
  (2, [(cell_c, (3, cell_z, LEFT));
       (cell_z, (2, cell_z, RIGHT));
       (cell_b, (2, cell_b, RIGHT));
       (cell_a, (2, cell_a, STAY));
       (cell_x, (2, cell_x, STAY));
       (cell_y, (2, cell_y, STAY));
       (blank,  (2, blank,  STAY))]);
  (3, [(cell_x, (0, cell_x, RIGHT));
       (cell_a, (3, cell_a, LEFT));
       (cell_b, (3, cell_b, LEFT));
       (cell_z, (3, cell_z, LEFT));
       (cell_y, (3, cell_y, LEFT));
       (cell_c, (3, cell_c, STAY));
       (blank,  (3, blank,  STAY))]);
  (4, [(blank,  (5, blank,  RIGHT));
       (cell_x, (4, cell_x, LEFT));
       (cell_a, (4, cell_a, STAY));
       (cell_b, (4, cell_b, STAY));
       (cell_c, (4, cell_c, STAY));
       (cell_y, (4, cell_y, STAY));
       (cell_z, (4, cell_z, STAY))]);
  (5, [(blank,  (6, blank,  STAY));
       (cell_x, (5, cell_x, RIGHT));
       (cell_y, (5, cell_y, RIGHT));
       (cell_z, (5, cell_z, RIGHT));
       (cell_a, (5, cell_a, STAY));
       (cell_b, (5, cell_b, STAY));
       (cell_c, (5, cell_c, STAY))]);
  (6, [(blank,  (6, blank,  STAY));
       (cell_a, (6, cell_a, STAY));
       (cell_b, (6, cell_b, STAY));
       (cell_c, (6, cell_c, STAY));
       (cell_x, (6, cell_x, STAY));
       (cell_y, (6, cell_y, STAY));
       (cell_z, (6, cell_z, STAY))])].

(** turing_machine_demo1c.py:12-30, turing_machine_demo2c.py:12-30: "up" = 1, "down" = 2; the cells a to e are 0 to 4 *)
Definition nks25 : dict Z (dict sym (Z * sym * Z)) :=
 [(1, [(SInt 0, (1, SInt 1, LEFT));
       (SInt 1, (1, SInt 0, RIGHT));
       (SInt 2, (1, SInt 0, RIGHT));
       (SInt 3, (2, SInt 4, RIGHT));
       (SInt 4, (2, SInt 3, LEFT))]);
  (2, [(SInt 0, (1, SInt 3, LEFT));
       (SInt 1, (1, SInt 0, RIGHT));
       (SInt 2, (1, SInt 4, RIGHT));
       (SInt 3, (2, SInt 4, RIGHT));
       (SInt 4, (2, SInt 2, LEFT))])].

(** [row.index(x)] *)
Fixpoint list_index (row : list (option string)) (x : option string) : res Z :=
  match row with
  | [] => Err ValueError
  | y :: row => if eqb y x then Ok 0 else i <- list_index row x ;; Ok (i + 1)
  end.

(** turing_machine_demo1c.py:58-69, turing_machine_demo2c.py:62-73: keep the rows at which the head is further to the right than ever before *)
Definition compress {A} (history : list A) (head_activities : list (list (option string))) : res (list A * list (list (option string))) :=
  ' (acts, heads, _) <- rfold (fun st '(i, row) =>
      let '(acts, heads, furthest) := st in
      head_idx <- match list_index row (Some "1") with
                  | Err ValueError => list_index row (Some "2")
                  | r => r
                  end ;;
      if furthest <? head_idx then
        a <- of_opt IndexError (nth_error history i) ;;
        Ok (acts ++ [a], heads ++ [row], head_idx)
      else Ok st) (enumerate head_activities) ([], [], 0) ;;
  Ok (acts, heads).

(** turing_machine_demo1.py:11-23, turing_machine_demo2.py:11-23: head states up = 1 and down = 2, cells on = 1 and off = 0 *)
Definition nks22 : dict Z (dict sym (Z * sym * Z)) :=
 [(1, [(SInt 1, (1, SInt 0, RIGHT));
       (SInt 0, (2, SInt 1, RIGHT))]);
  (2, [(SInt 1, (1, SInt 1, LEFT));
       (SInt 0, (2, SInt 1, LEFT))])].
