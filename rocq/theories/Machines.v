(** * Model of the one-node demos: finite state machine, pushdown automaton, Collatz sequence *)
From Coq Require Import Ascii.
From Verif Require Import Py Network Topology Evolve.
Open Scope string_scope.
Open Scope list_scope.
Open Scope Z_scope.

(** demos/finite_state_machine/finite_state_machine_demo.py:18, demos/pushdown_automata/pushdown_automata_demo.py:14,
    demos/collatz_conjecture/collatz_conjecture_demo.py:12: from_adjacency_matrix([[1]]) *)
Definition one_node : network Z Z := fst (from_adjacency_matrix nzb [[1]]).

Section Model.
  Context {V I U : Type}.
  Notation ctx := (node_ctx Z V Z I).

  (** a str given as the input of evolve: the list of its one-character strings, evolution.py:434-441 *)
  Definition events (s : string) : list (option (inval I)) := map (fun c => Some (InStr (String c ""))) (list_ascii_of_string s).

  (** ctx.input == s *)
  Definition input_is (x : ctx) (s : string) : bool := match x_input x with Some (NStr t) => String.eqb t s | _ => false end.

  (** finite_state_machine_demo.py:25-30 with the tables of lines 14-15 *)
  Definition fsm_rule (x : ctx) : res Z := Ok (if input_is x "p" then 0 else 1).

  (** pushdown_automata_demo.py:27, 30, 33, 36, 39: one condition; stack[-1] is looked at only if the first two parts hold *)
  Definition pda_case (st : list string) (x : ctx) (q : Z) (c top : string) : res bool :=
    if (x_cur x =? q) && input_is x c then t <- of_opt IndexError (py_nth st (-1)) ;; Ok (String.eqb t top) else Ok false.
  Definition newline : string := String (ascii_of_nat 10) "".
  (** pushdown_automata_demo.py:25-42; the stack is the user state, its top is the last element *)
  Definition pda_rule (st : list string) (x : ctx) : res (list string * outcome Z V Z) :=
    b <- pda_case st x 0 "a" "Z" ;; if b : bool then Ok (st ++ ["a"], mkOut 1 [] []) else
    b <- pda_case st x 1 "a" "a" ;; if b : bool then Ok (st ++ ["a"], mkOut 1 [] []) else
    b <- pda_case st x 1 "b" "a" ;; if b : bool then Ok (removelast st, mkOut 2 [] []) else
    b <- pda_case st x 2 "b" "a" ;; if b : bool then Ok (removelast st, mkOut 2 [] []) else
    b <- pda_case st x 2 newline "Z" ;; if b : bool then Ok (st, mkOut 3 [] []) else
    Err (Raise "input rejected").

  (** collatz_conjecture_demo.py:14-20 and collatz_conjecture_demo2.py:16-22. Simplification: [n / 2] is a float in Python; the model
      keeps integers, which is exact as long as the numbers stay below 2^53 (CollatzDemo.v has the floats). *)
  Definition collatz_rule (x : ctx) : res Z := Ok (if x_cur x mod 2 =? 0 then x_cur x / 2 else 3 * x_cur x + 1).
  (** collatz_conjecture_demo.py:22-25; [one] is the literal 1 handed to the nodes *)
  Definition collatz_input (one : I) : U -> Z -> dict Z Z -> network Z V -> res (U * option (inval I)) := fun u _ a _ =>
    x <- of_opt KeyError (dget a 0) ;; Ok (u, if x =? 1 then None else Some (InVal one)).
End Model.
