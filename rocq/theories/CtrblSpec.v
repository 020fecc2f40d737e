(** * Specification of CTRBL neighbourhoods, quarter turns and rotation-closed tables *)
From Coq Require Import String Ascii.
From Verif Require Import Py.
Open Scope Z_scope.

(** the cells centre, top, right, bottom, left of cell (a, b) on a torus, numbered row by row *)
Definition ctrbl_cells (rows cols a b : Z) : list Z :=
  [a * cols + b;
   (a - 1) mod rows * cols + b;
   a * cols + (b + 1) mod cols;
   (a + 1) mod rows * cols + b;
   a * cols + (b - 1) mod cols].

(** [k'] is [k] with the four outer states turned by 0, 90, 180 or 270 degrees *)
Definition turned {A} (k k' : list A) : Prop := exists c t r b l, k = [c; t; r; b; l] /\
  In k' [[c; t; r; b; l]; [c; l; t; r; b]; [c; b; l; t; r]; [c; r; b; l; t]].

(** every key is a 5-tuple *)
Definition five {A B} (t : list (list A * B)) : Prop := forall k v, In (k, v) t -> length k = 5%nat.

(** entries whose keys are turns of each other have the same image *)
Definition consistent {A B} (t : list (list A * B)) : Prop :=
  forall k k' v v', In (k, v) t -> In (k', v') t -> turned k k' -> v = v'.

(** [S'] is the n by n configuration [S] turned by 90 degrees clockwise: the cell in row a, column b moves to row b, column n-1-a *)
Definition quarter_turn {A} (n : Z) (S S' : Z -> option A) : Prop :=
  forall a b, 0 <= a < n -> 0 <= b < n -> S' (b * n + (n - 1 - a)) = S (a * n + b).

(** [v] is the image of the last entry of [t] whose key is a turn of [k] *)
Definition last_entry {A} (t : list (list A * A)) (k : list A) (v : A) : Prop :=
  exists p k0 s, t = p ++ (k0, v) :: s /\ turned k0 k /\ forall k1 v1, In (k1, v1) s -> ~ turned k1 k.

(** Langton's loop, drawn with its sheath; a space is a cell that is not drawn. The drawing starts one column to the left of the
    given position. *)
Definition loop_drawing : list string := [
  " 22222222";
  "2170140142";
  "2022222202";
  "2720000212";
  "2120000212";
  "2020000212";
  "2720000212";
  "21222222122222";
  "207107107111112";
  " 2222222222222"]%string.

(** the digit drawn in row [dr], column [dc] relative to the given position *)
Definition drawn (dr dc : Z) : option Z :=
  if (dr <? 0) || (dc <? -1) then None else
  match nth_error loop_drawing (Z.to_nat dr) with
  | None => None
  | Some s => match String.get (Z.to_nat (dc + 1)) s with
              | None => None
              | Some ch => if Ascii.eqb ch " " then None else Some (Z.of_nat (Ascii.nat_of_ascii ch) - 48)
              end
  end.
