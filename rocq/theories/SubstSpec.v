(** * Parallel rewriting of strings (lists of characters) *)
From Coq Require Import Ascii.
From Verif Require Import Py.
Open Scope string_scope.
Open Scope list_scope.

(** the substrings s[i:i+k] of length k, from left to right *)
Definition windows (k : nat) (s : list ascii) : list (list ascii) := map (fun i => firstn k (skipn i s)) (seq 0 (length s + 1 - k)).

Section Rewrite.
  Context (rules : dict string string).

  Definition image (w : list ascii) : option (list ascii) := option_map list_ascii_of_string (dget rules (string_of_list_ascii w)).

  (** the concatenation of the images; None if one is missing *)
  Fixpoint images (ws : list (list ascii)) : option (list ascii) :=
    match ws with
    | [] => Some []
    | w :: ws => match image w, images ws with Some x, Some y => Some (x ++ y) | _, _ => None end
    end.

  Definition rewrite_all (k : nat) (s : list ascii) : option (list ascii) := images (windows k s).

  (** [ss] are the successive strings from [s] *)
  Definition derivation (k : nat) (s : list ascii) (ss : list (list ascii)) : Prop :=
    nth_error ss 0 = Some s /\
    forall i a b, nth_error ss i = Some a -> nth_error ss (i + 1) = Some b -> rewrite_all k a = Some b.
End Rewrite.
