(** * What a particle swarm search should do (C105); nothing here refers to the model of the demos *)
From Coq Require Import List ZArith.
Import ListNotations.
Open Scope list_scope.

(** the comparison of objective values is a strict weak order (that of the floats other than NaN is) *)
Record weak_order {F} (lt : F -> F -> bool) : Prop := {
  wo_asym : forall a b, lt a b = true -> lt b a = false;
  wo_cotrans : forall a b c, lt a c = true -> lt a b = true \/ lt b c = true }.

(** [g] is the first of the best elements of [l]: none is better, and it is better than all those before it *)
Definition first_best {X F} (f : X -> F) (lt : F -> F -> bool) (l : list X) (g : X) : Prop :=
  exists i, nth_error l i = Some g /\ (forall q, In q l -> lt (f q) (f g) = false) /\
    forall j q, j < i -> nth_error l j = Some q -> lt (f g) (f q) = true.

(** the values of [s] at times 0, ..., k *)
Definition upto {X} (s : nat -> X) (k : nat) : list X := map s (seq 0 (S k)).

(** A search by [n] particles with one leader. [lead k j] is the leader that particle [j] follows in step [k]: particles
    [0 .. j-1] have already moved in this step. *)
Record swarm_search {X F} (f : X -> F) (lt : F -> F -> bool) (move : X -> X -> X) (vel : nat -> X -> X -> X -> X -> X)
    (n : nat) (pos best speed lead : nat -> nat -> X) : Prop := {
  (** inertia, own best and leader give the speed; [2 * (k * n + j)] random vectors were drawn before *)
  ss_speed : forall k j, j < n -> speed (S k) j = vel (2 * (k * n + j)) (pos k j) (best k j) (speed k j) (lead k j);
  ss_move : forall k j, j < n -> pos (S k) j = move (pos k j) (speed (S k) j);
  (** a particle's best is the first best of the positions it was in *)
  ss_best : forall k j, j < n -> first_best f lt (upto (fun l => pos l j) k) (best k j);
  (** at the start the leader is the first best particle *)
  ss_start : first_best f lt (map (pos 0) (seq 0 n)) (lead 0 0);
  (** the leader is replaced only by something better, found by the particle that just moved *)
  ss_lead : forall k j, j < n -> lead k (S j) = lead k j /\ lt (f (best (S k) j)) (f (lead k j)) = false \/ lead k (S j) = best (S k) j /\ lt (f (best (S k) j)) (f (lead k j)) = true;
  ss_next : forall k, lead (S k) 0 = lead k n;
  (** the leader of step [k] is the best of all the positions any particle was in so far *)
  ss_found : forall k, exists l j, l <= k /\ j < n /\ lead k 0 = pos l j;
  ss_optimal : forall k l j, l <= k -> j < n -> lt (f (pos l j)) (f (lead k 0)) = false;
  (** and never becomes worse *)
  ss_monotone : forall k l, l <= k -> lt (f (lead l 0)) (f (lead k 0)) = false }.

(** A search for [T] states by [n] particles in which a particle follows the best of its neighbours. The network may change:
    [order k] are its nodes in step [k], in the order in which they move, and [nb k v] the neighbours of [v].
    [report k] is the value reported for the whole swarm before step [k]. *)
Record local_search {X F L} (f : X -> F) (lt : F -> F -> bool) (move : X -> X -> X) (vel : nat -> X -> X -> X -> X -> X)
    (n T : nat) (order : nat -> list L) (nb : nat -> L -> list L) (pos best speed : nat -> L -> X) (report : nat -> F) : Prop := {
  (** the neighbours are seen as they were before the step, whatever the order *)
  lo_speed : forall k j v, S k < T -> nth_error (order k) j = Some v -> exists g, first_best f lt (map (best k) (nb k v)) g /\
    speed (S k) v = vel (2 * (k * n + j)) (pos k v) (best k v) (speed k v) g;
  lo_move : forall k v, S k < T -> In v (order k) -> pos (S k) v = move (pos k v) (speed (S k) v);
  lo_best : forall k v, k < T -> In v (order 0) -> first_best f lt (upto (fun l => pos l v) k) (best k v);
  lo_found : forall k, k < T -> exists v l, In v (order 0) /\ l <= k /\ report k = f (pos l v);
  lo_optimal : forall k l v, l <= k -> k < T -> In v (order 0) -> lt (f (pos l v)) (report k) = false;
  lo_monotone : forall k l, l <= k -> k < T -> lt (report l) (report k) = false }.
