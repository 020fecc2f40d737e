(** * Langton: model of netomaton/langtons_loop.py *)
From Verif Require Import Py Network Topology Ctrbl.
Open Scope Z_scope.

(** langtons_loop.py:18-236, the rule table, entry by entry (states are integers) *)
Definition langton_table : dict (list Z) Z := [
   ([0; 0; 0; 0; 0], 0); ([0; 0; 0; 0; 1], 2); ([0; 0; 0; 0; 2], 0); ([0; 0; 0; 0; 3], 0); ([0; 0; 0; 0; 5], 0); ([0; 0; 0; 0; 6], 3);
   ([0; 0; 0; 0; 7], 1); ([0; 0; 0; 1; 1], 2); ([0; 0; 0; 1; 2], 2); ([0; 0; 0; 1; 3], 2); ([0; 0; 0; 2; 1], 2); ([0; 0; 0; 2; 2], 0);
   ([0; 0; 0; 2; 3], 0); ([0; 0; 0; 2; 6], 2); ([0; 0; 0; 2; 7], 2); ([0; 0; 0; 3; 2], 0); ([0; 0; 0; 5; 2], 5); ([0; 0; 0; 6; 2], 2);
   ([0; 0; 0; 7; 2], 2); ([0; 0; 1; 0; 2], 2); ([0; 0; 1; 1; 2], 0); ([0; 0; 2; 0; 2], 0); ([0; 0; 2; 0; 3], 0); ([0; 0; 2; 0; 5], 0);
   ([0; 0; 2; 1; 2], 5); ([0; 0; 2; 2; 2], 0); ([0; 0; 2; 3; 2], 2); ([0; 0; 5; 2; 2], 2); ([0; 1; 2; 3; 2], 1); ([0; 1; 2; 4; 2], 1);
   ([0; 1; 2; 5; 2], 5); ([0; 1; 2; 6; 2], 1); ([0; 1; 2; 7; 2], 1); ([0; 1; 2; 7; 5], 1); ([0; 1; 4; 2; 2], 1); ([0; 1; 4; 3; 2], 1);
   ([0; 1; 4; 4; 2], 1); ([0; 1; 4; 7; 2], 1); ([0; 1; 6; 2; 5], 1); ([0; 1; 7; 2; 2], 1); ([0; 1; 7; 2; 5], 5); ([0; 1; 7; 5; 2], 1);
   ([0; 1; 7; 6; 2], 1); ([0; 1; 7; 7; 2], 1); ([0; 2; 5; 2; 7], 1); ([1; 0; 0; 0; 1], 1); ([1; 0; 0; 0; 6], 1); ([1; 0; 0; 0; 7], 7);
   ([1; 0; 0; 1; 1], 1); ([1; 0; 0; 1; 2], 1); ([1; 0; 0; 2; 1], 1); ([1; 0; 0; 2; 4], 4); ([1; 0; 0; 2; 7], 7); ([1; 0; 0; 5; 1], 1);
   ([1; 0; 1; 0; 1], 1); ([1; 0; 1; 1; 1], 1); ([1; 0; 1; 2; 4], 4); ([1; 0; 1; 2; 7], 7); ([1; 0; 2; 0; 2], 6); ([1; 0; 2; 1; 2], 1);
   ([1; 0; 2; 2; 1], 1); ([1; 0; 2; 2; 4], 4); ([1; 0; 2; 2; 6], 3); ([1; 0; 2; 2; 7], 7); ([1; 0; 2; 3; 2], 7); ([1; 0; 2; 4; 2], 4);
   ([1; 0; 2; 6; 2], 6); ([1; 0; 2; 6; 4], 4); ([1; 0; 2; 6; 7], 7); ([1; 0; 2; 7; 1], 0); ([1; 0; 2; 7; 2], 7); ([1; 0; 5; 4; 2], 7);
   ([1; 1; 1; 1; 2], 1); ([1; 1; 1; 2; 2], 1); ([1; 1; 1; 2; 4], 4); ([1; 1; 1; 2; 5], 1); ([1; 1; 1; 2; 6], 1); ([1; 1; 1; 2; 7], 7);
   ([1; 1; 1; 5; 2], 2); ([1; 1; 2; 1; 2], 1); ([1; 1; 2; 2; 2], 1); ([1; 1; 2; 2; 4], 4); ([1; 1; 2; 2; 5], 1); ([1; 1; 2; 2; 7], 7);
   ([1; 1; 2; 3; 2], 1); ([1; 1; 2; 4; 2], 4); ([1; 1; 2; 6; 2], 1); ([1; 1; 2; 7; 2], 7); ([1; 1; 3; 2; 2], 1); ([1; 2; 2; 2; 4], 4);
   ([1; 2; 2; 2; 7], 7); ([1; 2; 2; 4; 3], 4); ([1; 2; 2; 5; 4], 7); ([1; 2; 3; 2; 4], 4); ([1; 2; 3; 2; 7], 7); ([1; 2; 4; 2; 5], 5);
   ([1; 2; 4; 2; 6], 7); ([1; 2; 5; 2; 7], 5); ([2; 0; 0; 0; 1], 2); ([2; 0; 0; 0; 2], 2); ([2; 0; 0; 0; 4], 2); ([2; 0; 0; 0; 7], 1);
   ([2; 0; 0; 1; 2], 2); ([2; 0; 0; 1; 5], 2); ([2; 0; 0; 2; 1], 2); ([2; 0; 0; 2; 2], 2); ([2; 0; 0; 2; 3], 2); ([2; 0; 0; 2; 4], 2);
   ([2; 0; 0; 2; 5], 0); ([2; 0; 0; 2; 6], 2); ([2; 0; 0; 2; 7], 2); ([2; 0; 0; 3; 2], 6); ([2; 0; 0; 4; 2], 3); ([2; 0; 0; 5; 1], 7);
   ([2; 0; 0; 5; 2], 2); ([2; 0; 0; 5; 7], 5); ([2; 0; 0; 7; 2], 2); ([2; 0; 1; 0; 2], 2); ([2; 0; 1; 1; 2], 2); ([2; 0; 1; 2; 2], 2);
   ([2; 0; 1; 4; 2], 2); ([2; 0; 1; 7; 2], 2); ([2; 0; 2; 0; 2], 2); ([2; 0; 2; 0; 3], 2); ([2; 0; 2; 0; 5], 2); ([2; 0; 2; 0; 7], 3);
   ([2; 0; 2; 1; 2], 2); ([2; 0; 2; 1; 5], 2); ([2; 0; 2; 2; 1], 2); ([2; 0; 2; 2; 2], 2); ([2; 0; 2; 2; 7], 2); ([2; 0; 2; 3; 2], 1);
   ([2; 0; 2; 4; 2], 2); ([2; 0; 2; 4; 5], 2); ([2; 0; 2; 5; 2], 0); ([2; 0; 2; 5; 5], 2); ([2; 0; 2; 6; 2], 2); ([2; 0; 2; 7; 2], 2);
   ([2; 0; 3; 1; 2], 2); ([2; 0; 3; 2; 1], 6); ([2; 0; 3; 2; 2], 6); ([2; 0; 3; 4; 2], 2); ([2; 0; 4; 2; 2], 2); ([2; 0; 5; 1; 2], 2);
   ([2; 0; 5; 2; 1], 2); ([2; 0; 5; 2; 2], 2); ([2; 0; 5; 5; 2], 1); ([2; 0; 5; 7; 2], 5); ([2; 0; 6; 2; 2], 2); ([2; 0; 6; 7; 2], 2);
   ([2; 0; 7; 1; 2], 2); ([2; 0; 7; 2; 2], 2); ([2; 0; 7; 4; 2], 2); ([2; 0; 7; 7; 2], 2); ([2; 1; 1; 2; 2], 2); ([2; 1; 1; 2; 6], 1);
   ([2; 1; 2; 2; 2], 2); ([2; 1; 2; 2; 4], 2); ([2; 1; 2; 2; 6], 2); ([2; 1; 2; 2; 7], 2); ([2; 1; 4; 2; 2], 2); ([2; 1; 5; 2; 2], 2);
   ([2; 1; 6; 2; 2], 2); ([2; 1; 7; 2; 2], 2); ([2; 2; 2; 2; 7], 2); ([2; 2; 2; 4; 4], 2); ([2; 2; 2; 4; 6], 2); ([2; 2; 2; 7; 6], 2);
   ([2; 2; 2; 7; 7], 2); ([3; 0; 0; 0; 1], 3); ([3; 0; 0; 0; 2], 2); ([3; 0; 0; 0; 4], 1); ([3; 0; 0; 0; 7], 6); ([3; 0; 0; 1; 2], 3);
   ([3; 0; 0; 4; 2], 1); ([3; 0; 0; 6; 2], 2); ([3; 0; 1; 0; 2], 1); ([3; 0; 1; 2; 2], 0); ([3; 0; 2; 5; 1], 1); ([4; 0; 1; 1; 2], 0);
   ([4; 0; 1; 2; 2], 0); ([4; 0; 1; 2; 5], 0); ([4; 0; 2; 1; 2], 0); ([4; 0; 2; 2; 2], 1); ([4; 0; 2; 3; 2], 6); ([4; 0; 2; 5; 2], 0);
   ([4; 0; 3; 2; 2], 1); ([5; 0; 0; 0; 2], 2); ([5; 0; 0; 2; 1], 5); ([5; 0; 0; 2; 2], 5); ([5; 0; 0; 2; 3], 2); ([5; 0; 0; 2; 7], 2);
   ([5; 0; 0; 5; 2], 0); ([5; 0; 2; 0; 2], 2); ([5; 0; 2; 1; 2], 2); ([5; 0; 2; 1; 5], 2); ([5; 0; 2; 2; 2], 0); ([5; 0; 2; 2; 4], 4);
   ([5; 0; 2; 7; 2], 2); ([5; 1; 2; 1; 2], 2); ([5; 1; 2; 2; 2], 0); ([5; 1; 2; 4; 2], 2); ([5; 1; 2; 7; 2], 2); ([6; 0; 0; 0; 1], 1);
   ([6; 0; 0; 0; 2], 1); ([6; 0; 2; 1; 2], 0); ([6; 1; 2; 1; 2], 5); ([6; 1; 2; 1; 3], 1); ([6; 1; 2; 2; 2], 5); ([7; 0; 0; 0; 7], 7);
   ([7; 0; 1; 1; 2], 0); ([7; 0; 1; 2; 2], 0); ([7; 0; 1; 2; 5], 0); ([7; 0; 2; 1; 2], 0); ([7; 0; 2; 2; 2], 1); ([7; 0; 2; 2; 5], 1);
   ([7; 0; 2; 3; 2], 1); ([7; 0; 2; 5; 2], 5); ([7; 0; 2; 7; 2], 0)].

(** langtons_loop.py:11-238 [LangtonsLoop.__init__] *)
Definition langton_init (rows cols : Z) : res (ctrbl Z) := ctrbl_init rows cols langton_table true.

(** langtons_loop.py:259-377: the assignments (row offset, column offset, state) made for each loop, in order *)
Definition loop_writes : list (Z * Z * Z) := [
   (0, 0, 2); (0, 1, 2); (0, 2, 2); (0, 3, 2); (0, 4, 2); (0, 5, 2); (0, 6, 2); (0, 7, 2); (1, -1, 2); (1, 0, 1);
   (1, 1, 7); (1, 2, 0); (1, 3, 1); (1, 4, 4); (1, 5, 0); (1, 6, 1); (1, 7, 4); (1, 8, 2); (2, -1, 2); (2, 0, 0);
   (2, 1, 2); (2, 2, 2); (2, 3, 2); (2, 4, 2); (2, 5, 2); (2, 6, 2); (2, 7, 0); (2, 8, 2); (3, -1, 2); (3, 0, 7);
   (3, 1, 2); (3, 2, 0); (3, 3, 0); (3, 4, 0); (3, 5, 0); (3, 6, 2); (3, 7, 1); (3, 8, 2); (4, -1, 2); (4, 0, 1);
   (4, 1, 2); (4, 2, 0); (4, 3, 0); (4, 4, 0); (4, 5, 0); (4, 6, 2); (4, 7, 1); (4, 8, 2); (5, -1, 2); (5, 0, 0);
   (5, 1, 2); (5, 2, 0); (5, 3, 0); (5, 4, 0); (5, 5, 0); (5, 6, 2); (5, 7, 1); (5, 8, 2); (6, -1, 2); (6, 0, 7);
   (6, 1, 2); (6, 2, 0); (6, 3, 0); (6, 4, 0); (6, 5, 0); (6, 6, 2); (6, 7, 1); (6, 8, 2); (7, -1, 2); (7, 0, 1);
   (7, 1, 2); (7, 2, 2); (7, 3, 2); (7, 4, 2); (7, 5, 2); (7, 6, 2); (7, 7, 1); (7, 8, 2); (7, 9, 2); (7, 10, 2);
   (7, 11, 2); (7, 12, 2); (8, -1, 2); (8, 0, 0); (8, 1, 7); (8, 2, 1); (8, 3, 0); (8, 4, 7); (8, 5, 1); (8, 6, 0);
   (8, 7, 7); (8, 8, 1); (8, 9, 1); (8, 10, 1); (8, 11, 1); (8, 12, 1); (8, 13, 2); (9, 0, 2); (9, 1, 2); (9, 2, 2);
   (9, 3, 2); (9, 4, 2); (9, 5, 2); (9, 6, 2); (9, 7, 2); (9, 8, 2); (9, 9, 2); (9, 10, 2); (9, 11, 2); (9, 12, 2)].

(** langtons_loop.py:240-379 [init_loops] before flattening: [row[i]], [col[i]] raise IndexError, and so does an index that
    is out of range; numpy indices may be negative like Python's ([mat_set]). *)
Definition init_loops_grid (rows cols : Z) (n : Z) (row col : list Z) : res (list (list Z)) :=
  if (rows <? 0) || (cols <? 0) then Err ValueError else
  rfold (fun M i =>
      r <- of_opt IndexError (py_nth row i) ;;
      c <- of_opt IndexError (py_nth col i) ;;
      rfold (fun M w => let '(dr, dc, s) := w in mat_set M (r + dr) (c + dc) s) loop_writes M)
    (zrange 0 n) (repeat (repeat 0 (Z.to_nat cols)) (Z.to_nat rows)).

(** langtons_loop.py:379 [initial_conditions.flatten()] *)
Definition init_loops (rows cols : Z) (n : Z) (row col : list Z) : res (list Z) :=
  M <- init_loops_grid rows cols n row col ;; Ok (concat M).
