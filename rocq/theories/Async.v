(** * Async: model of netomaton/asynchronous_rule.py and netomaton/reversible_rule.py.

    The rule object's fields are part of the user state that evolve threads. np.random.shuffle is an oracle: the d-th shuffle
    of [arange(n)] is [shuffle d n], a list of labels. *)
From Verif Require Import Py Network Evolve.
Open Scope list_scope.
Open Scope Z_scope.

Section Async.
  Context {L V A U I : Type} `{EqD L}.
  Notation ctx := (node_ctx L V A I).

  Record async := mkAsync { a_order : list L; a_curr : nat; a_applied : nat; a_draws : nat }.

  (** [shuffle d n], asynchronous_rule.py:34-36; [rand] is randomize_each_cycle *)
  Context (shuffle : nat -> nat -> list L) (rand : bool).

  (** asynchronous_rule.py:12-32 *)
  Definition async_init (update_order : option (list L)) (n : option nat) : res async :=
    match update_order, n with
    | Some o, _ => Ok (mkAsync o 0 0 0)
    | None, Some k => Ok (mkAsync (shuffle 0 k) 0 0 1)
    | None, None => Err (Raise "either update_order or n must be specified")
    end.

  (** asynchronous_rule.py:51-56 *)
  Definition check_for_end_of_cycle (a : async) : async :=
    if Nat.eqb (a_applied a) (length (a_order a)) then
      mkAsync (if rand then shuffle (a_draws a) (length (a_order a)) else a_order a)
              ((a_curr a + 1) mod length (a_order a)) 0
              (if rand then S (a_draws a) else a_draws a)
    else a.

  (** asynchronous_rule.py:39-49; [r] is the wrapped rule *)
  Definition async_call (r : @rule L V A U I) : @rule L V A (U * async) I := fun ua x =>
    let '(u, a) := ua in
    let a1 := if in_dec eqd (x_label x) (a_order a) then mkAsync (a_order a) (a_curr a) (S (a_applied a)) (a_draws a) else a in
    c <- of_opt IndexError (nth_error (a_order a1) (a_curr a1)) ;;
    let a2 := check_for_end_of_cycle a1 in
    if eqd (x_label x) c then ' (u', o) <- r u x ;; Ok ((u', a2), o)
    else Ok ((u, a2), mkOut (x_cur x) [] []).
End Async.
Arguments async L : clear implicits.
Arguments mkAsync {L}. Arguments a_order {L}. Arguments a_curr {L}. Arguments a_applied {L}. Arguments a_draws {L}.

(** reversible_rule.py:16-19 *)
Definition reversible_call {L V I : Type} `{EqD L} (h : node_ctx L V Z I -> res Z) (x : node_ctx L V Z I) : res Z :=
  regular_result <- h x ;;
  p <- past_activity_of x (x_label x) (-1) ;;
  Ok (Z.lxor regular_result p).
