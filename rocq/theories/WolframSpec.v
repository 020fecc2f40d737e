(** * Rewriting of collections of relations (ordered hypergraphs) *)
From Coq Require Import Permutation.
From Verif Require Import Py.
Open Scope Z_scope.

Notation relation := (list Z).
Notation config := (list (list Z)).

(** the relation is the pattern with its symbols replaced according to [b] *)
Definition instance {S} (b : S -> option Z) (pattern : list S) (r : relation) : Prop := map b pattern = map Some r.

(** one rewritten group: the binding found on the left, its extension used on the right, the relations taken and produced *)
Record group (S : Type) := mkGroup { gr_in : S -> option Z; gr_out : S -> option Z; gr_lhs : config; gr_rhs : config }.
Arguments mkGroup {S}. Arguments gr_in {S}. Arguments gr_out {S}. Arguments gr_lhs {S}. Arguments gr_rhs {S}.

Section Rewrite.
  Context {S : Type} (lhs rhs : list (list S)).

  Definition group_ok (g : group S) : Prop :=
    (forall s, gr_in g s <> None <-> In s (concat lhs)) /\
    (forall s, gr_out g s <> None <-> In s (concat lhs) \/ In s (concat rhs)) /\
    (forall s n, gr_in g s = Some n -> gr_out g s = Some n) /\
    Forall2 (instance (gr_in g)) lhs (gr_lhs g) /\
    Forall2 (instance (gr_out g)) rhs (gr_rhs g).

  (** [n] was made for symbol [s] of group [g] *)
  Definition creates (g : group S) (s : S) (n : Z) : Prop := gr_in g s = None /\ gr_out g s = Some n.

  (** the groups are disjoint (as parts of the multiset of relations); [rest], what is in no group, is kept *)
  Definition rewrites (groups : list (group S)) (rest old new : config) : Prop :=
    Permutation old (concat (map gr_lhs groups) ++ rest) /\
    Permutation new (concat (map gr_rhs groups) ++ rest) /\
    Forall group_ok groups.

  (** created nodes occur nowhere in the old configuration, and no two of them are equal *)
  Definition fresh (groups : list (group S)) (old : config) : Prop :=
    (forall g s n, In g groups -> creates g s n -> ~ In n (concat old)) /\
    (forall i j g g' s s' n, nth_error groups i = Some g -> nth_error groups j = Some g' -> creates g s n -> creates g' s' n -> i = j /\ s = s').
End Rewrite.

(** A run: every configuration is a rewriting of the one before it, and the nodes created on the way occur in no earlier one. *)
Inductive history {S} (lhs rhs : list (list S)) : list config -> Prop :=
| hist_one c : history lhs rhs [c]
| hist_step h old new groups rest :
    history lhs rhs (h ++ [old]) -> rewrites lhs rhs groups rest old new -> fresh groups (concat (h ++ [old])) ->
    history lhs rhs ((h ++ [old]) ++ [new]).
