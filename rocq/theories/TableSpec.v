(** * Specifications for rule tables *)
From Coq Require Import Ascii.
From Verif Require Import Py RulesSpec.
Open Scope list_scope.
Open Scope Z_scope.

(** the neighbourhood [ds] written with the digits 0-9A-Z *)
Definition symbol (d : Z) : ascii := nth (Z.to_nat d) (list_ascii_of_string "0123456789ABCDEFGHIJKLMNOPQRSTUVWXYZ") "?"%char.
Definition written (ds : list Z) : list ascii := map symbol ds.

Definition uniform (s : list ascii) : Prop := exists c m, s = repeat c (S m).

(** the number of entries equal to [q] *)
Definition entries_equal (t : dict (list ascii) Z) (q : Z) : Z := Z.of_nat (occurs (map snd t) q).

Definition isotropic_table (t : dict (list ascii) Z) (lookup : dict (list ascii) Z -> list ascii -> option Z) : Prop :=
  forall s, lookup t s = lookup t (rev s).

Section Walk.
  Context (lookup : dict (list ascii) Z -> list ascii -> option Z) (strong isotropic : bool).
  Notation table := (dict (list ascii) Z).

  (** state [s] (and its mirror image, for isotropic tables) now maps to [v]; the rest is unchanged *)
  Definition changed (t : table) (s : list ascii) (v : Z) (t' : table) : Prop :=
    (forall x, x = s \/ (isotropic = true /\ x = rev s) -> lookup t' x = Some v) /\
    (forall x, x <> s -> (isotropic = true -> x <> rev s) -> lookup t' x = lookup t x) /\
    ((isotropic = true -> In (rev s) (map fst t)) -> map fst t' = map fst t).

  (** [s] is a state whose entry satisfies [p] and that the walk may change *)
  Definition admissible (p : Z -> Prop) (t : table) (s : list ascii) : Prop :=
    (exists v, lookup t s = Some v /\ p v) /\ (strong = true -> ~ uniform s).

  (** a sequence of changes, each made while [go_on] holds, of admissible states [p] to a value that satisfies [p'] *)
  Inductive walk (go_on : table -> Prop) (p p' : Z -> Prop) : table -> table -> Prop :=
  | walk_end t : walk go_on p p' t t
  | walk_on t s v t1 t2 : go_on t -> admissible p t s -> p' v -> changed t s v t1 -> walk go_on p p' t1 t2 -> walk go_on p p' t t2.
End Walk.
