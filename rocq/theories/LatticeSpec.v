(** * Euclidean lattices: nodes are points with integer coordinates *)
From Verif Require Import Py.
Open Scope Z_scope.

(** number of points *)
Fixpoint volume (dims : list Z) : Z := match dims with [] => 1 | d :: ds => d * volume ds end.

(** the coordinates of point number [v]; the first coordinate runs fastest *)
Fixpoint coords (dims : list Z) (v : Z) : list Z := match dims with [] => [] | d :: ds => v mod d :: coords ds (v / d) end.

(** positions [a] and [b] on an axis of [d] positions are joined when they are consecutive; on a periodic axis the last is also joined to the first *)
Definition joined (periodic : bool) (d a b : Z) : Prop := b = a + 1 \/ a = b + 1 \/ periodic = true /\ (a = d - 1 /\ b = 0 \/ b = d - 1 /\ a = 0).

(** two points are adjacent when they are joined along one axis and agree in every other coordinate *)
Definition adjacent (periodic : bool) (dims : list Z) (u v : Z) : Prop :=
  exists i d a b, nth_error dims i = Some d /\ nth_error (coords dims u) i = Some a /\ nth_error (coords dims v) i = Some b /\ joined periodic d a b /\
    forall j, j <> i -> nth_error (coords dims u) j = nth_error (coords dims v) j.
