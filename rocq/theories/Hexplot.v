(** * Hexplot: the geometry of netomaton/hexplot.py. Floats are reals; colours, axes and the animation are not modelled. *)
From Verif Require Import Py.
From Coq Require Import Reals.
Open Scope list_scope.

(** hexplot.py:13-16, 19-22 *)
Definition oddr_offset_to_pixel (x y : Z) (size : R) : R * R :=
  ((size * sqrt 3 * (IZR x + 1 / 2 * IZR (Z.land y 1)))%R, (size * 3 / 2 * IZR y)%R).
Definition evenr_offset_to_pixel (x y : Z) (size : R) : R * R :=
  ((size * sqrt 3 * (IZR x - 1 / 2 * IZR (Z.land y 1)))%R, (size * 3 / 2 * IZR y)%R).

(** hexplot.py:34-38 *)
Definition get_triples {A} (activities : list (list A)) : list (Z * Z * A) :=
  flat_map (fun yr => map (fun xv => (Z.of_nat (fst xv), Z.of_nat (fst yr), snd xv)) (enumerate (snd yr))) (enumerate activities).

(** hexplot.py:46, 50-51; the same in 69, 75 *)
Definition has_odd_rows {A} (activities : list (list A)) : bool := negb (Z.of_nat (length activities) mod 2 =? 0)%Z.
Definition hex_centre (odd_rows : bool) (x y : Z) : R * R := if odd_rows then oddr_offset_to_pixel x y 1 else evenr_offset_to_pixel x y 1.
(** hexplot.py:45-55: the centres of the polygons with their values, in drawing order *)
Definition hexagons {A} (activities : list (list A)) : list (R * R * A) :=
  map (fun t => (hex_centre (has_odd_rows activities) (fst (fst t)) (snd (fst t)), snd t)) (get_triples activities).

(** matplotlib's RegularPolygon(numVertices=6, radius=1, orientation=np.radians(60)): the corner k relative to the centre. The corners of its
    unit polygon are at the angles 2*pi/6*k + pi/2, and the orientation is added to them. *)
Definition corner (k : nat) : R * R :=
  (let angle := 2 * PI / 6 * INR k + PI / 2 + 60 * (PI / 180) in (cos angle, sin angle))%R.
