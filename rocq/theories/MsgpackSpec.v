(** * Specification vocabulary for msgpack compression *)
From Verif Require Import Py Msgpack.
Open Scope list_scope.
Open Scope Z_scope.

(** nesting depth: 0 for scalars and strings *)
Fixpoint height (v : val) : Z :=
  match v with
  | VList l | VTuple l => 1 + fold_right Z.max (-1) (map height l)
  | VMap m => 1 + fold_right Z.max (-1) (map (fun kv => Z.max (height (fst kv)) (height (snd kv))) m)
  | _ => 0
  end.

Section All.
  Context (P : val -> Prop).
  (** [P] holds for every value occurring in [v], [v] included *)
  Fixpoint everywhere (v : val) : Prop :=
    P v /\
    match v with
    | VList l | VTuple l => fold_right and True (map everywhere l)
    | VMap m => fold_right and True (map (fun kv => everywhere (fst kv) /\ everywhere (snd kv)) m)
    | _ => True
    end.
End All.

(** integers, floats and lengths in range *)
Definition in_range (v : val) : Prop :=
  match v with
  | VInt z => - 2 ^ 63 <= z < 2 ^ 64
  | VStr s | VBytes s => Z.of_nat (String.length s) < 2 ^ 32
  | VList l | VTuple l => Z.of_nat (length l) < 2 ^ 32
  | VMap m => Z.of_nat (length m) < 2 ^ 32
  | _ => True
  end.

(** what every Python value satisfies: a float is 64 bits, the keys of a dict are distinct *)
Definition well_formed (v : val) : Prop :=
  match v with
  | VFloat b => 0 <= b < 2 ^ 64
  | VMap m => NoDup (map fst m)
  | _ => True
  end.

(** no dict key is a list, a dict or a tuple *)
Definition plain_keys (v : val) : Prop :=
  match v with
  | VMap m => forall k, In k (map fst m) -> match k with VList _ | VTuple _ | VMap _ => False | _ => True end
  | _ => True
  end.

Definition no_tuple (v : val) : Prop := match v with VTuple _ => False | _ => True end.

(** tuples become lists *)
Fixpoint tuples_to_lists (v : val) : val :=
  match v with
  | VList l | VTuple l => VList (map tuples_to_lists l)
  | VMap m => VMap (map (fun kv => (tuples_to_lists (fst kv), tuples_to_lists (snd kv))) m)
  | _ => v
  end.
