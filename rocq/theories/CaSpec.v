(** * Cellular automata, told without networks, contexts or dicts *)
From Verif Require Import Py Network Evolve.
Open Scope string_scope.
Open Scope list_scope.
Open Scope Z_scope.

(** the textbook global map: every cell [v] is updated from its own state and the states of the cells [nb v] *)
Definition ca_next {L A} (nb : L -> list L) (f : L -> A -> list A -> A) (s : L -> A) : L -> A := fun v => f v (s v) (map s (nb v)).
Definition ca_state {L A} (nb : L -> list L) (f : L -> A -> list A -> A) (k : nat) (s : L -> A) : L -> A := Nat.iter k (ca_next nb f) s.

(** the activities [S] show the configuration [s] on the cells of [D] *)
Definition shows_cells {L A} `{EqD L} (D : L -> Prop) (S : dict L A) (s : L -> A) : Prop := forall v, D v -> dget S v = Some (s v).

(** [w] can be reached from [v] by following at most [k] neighbour links *)
Inductive within {L} (nb : L -> list L) : nat -> L -> L -> Prop :=
| within_here k v : within nb k v v
| within_step k v u w : In u (nb v) -> within nb k u w -> within nb (S k) v w.

Section Rules.
  Context {L V A I : Type}.
  Notation ctx := (node_ctx L V A I).
  (** the rule reads nothing but the label of its node, its activity and the neighbours' activities *)
  Definition local_rule (h : ctx -> res A) : Prop :=
    forall x y, x_label x = x_label y -> x_cur x = x_cur y -> x_nacts x = x_nacts y -> h x = h y.
  (** ... and not even the label *)
  Definition uniform_rule (h : ctx -> res A) : Prop :=
    forall x y, x_cur x = x_cur y -> x_nacts x = x_nacts y -> h x = h y.
  (** ... and not the order of the neighbours *)
  Definition symmetric_rule (h : ctx -> res A) : Prop :=
    forall x y, x_cur x = x_cur y -> Permutation (x_nacts x) (x_nacts y) -> h x = h y.
  (** on activities satisfying [P], [m] neighbours at a time, the rule does not raise and gives an activity satisfying [P] *)
  Definition safe_rule (P : A -> Prop) (m : nat) (h : ctx -> res A) : Prop :=
    forall x, P (x_cur x) -> Forall P (x_nacts x) -> length (x_nacts x) = m -> exists a, h x = Ok a /\ P a.
End Rules.

(** evolve succeeds with these arguments, and reading the recorded states gives the activities [hs], one per timestep *)
Definition runs {L V A U I BA BN} `{EqD L} `{EqD A} (W : env L V A BA BN) fuel (u0 : U) (n : network L V) (c : cond L A) (T : Z) (g : @args L V A U I) (hs : list (dict L A)) : Prop :=
  exists uf traj, evolve W fuel u0 n (Some c) (Some T) None g = Ok (uf, traj) /\ Z.of_nat (length hs) = T /\
    Forall2 (fun st S => activities W st = Ok (match S with [] => None | _ => Some S end)) traj hs.
