(** * Turing: model of netomaton/turing_machine.py.

    A rule table is a dict of dicts: head state, then symbol read, to (next state, symbol to write, direction). The fields of a
    machine object that change are the user state that evolve threads. *)
From Verif Require Import Py Network Topology Evolve Utils.
Open Scope string_scope.
Open Scope list_scope.
Open Scope Z_scope.

(** turing_machine.py:8-10 *)
Definition LEFT : Z := 0.
Definition STAY : Z := 1.
Definition RIGHT : Z := 2.

(** [annotations = [[None for _ in range(cols)] for _ in range(rows)]], then [annotations[i][p] = s] for the i-th pair (s, p) *)
Definition annotate (rows cols : nat) (heads : list (string * Z)) : res (list (list (option string))) :=
  rfold (fun M ih =>
    let '(i, (s, p)) := ih in
    row <- of_opt IndexError (nth_error M i) ;;
    row' <- of_opt IndexError (py_set_nth row p (fun _ => Some s)) ;;
    Ok (upd_nth M i (fun _ => row'))) (enumerate heads) (repeat (repeat None cols) rows).

Section Tape.
  Context {Q S : Type} `{EqD Q} `{EqD S}.
  Context (table : dict Q (dict S (Q * S * Z))).

  (** [self._rule_table[head_state][node_state]] with the KeyError turned into an Exception *)
  Definition lookup (q : Q) (s : S) : res (Q * S * Z) :=
    match dget table q with
    | None => Err (Raise "no rule defined")
    | Some row => match dget row s with None => Err (Raise "no rule defined") | Some x => Ok x end
    end.

  (** turing_machine.py:28-32; _n and _rule_table do not change *)
  Record tape_centric := mkTC { tc_history : list (Q * Z); tc_timestep : Z }.
  Definition tc_init (initial_head_state : Q) (initial_head_position : Z) : tape_centric :=
    mkTC [(initial_head_state, initial_head_position)] 1.

  (** turing_machine.py:34-36 *)
  Definition tc_network (n : Z) : res (network Z Z) := cellular_automaton n 1 true.

  (** turing_machine.py:38-50 *)
  Definition tc_rule {I} : @rule Z Z S tape_centric I := fun m ctx =>
    let m := if x_time ctx =? tc_timestep m then m else mkTC (tc_history m) (x_time ctx) in
    ' (head_state, head_pos) <- of_opt IndexError (py_nth (tc_history m) (tc_timestep m - 1)) ;;
    let node_state := x_cur ctx in
    if x_label ctx =? head_pos then
      ' (next_head_state, new_node_state, direction) <- lookup head_state node_state ;;
      w <- of_opt IndexError (py_nth (x_nbrs ctx) direction) ;;
      Ok (mkTC (tc_history m ++ [(next_head_state, w)]) (tc_timestep m), mkOut new_node_state [] [])
    else Ok (m, mkOut node_state [] []).

  (** turing_machine.py:52-57; [str] is Python's str() on head states *)
  Definition tc_head_activities {BA BN} (W : env Z Z S BA BN) (str : Q -> string) (n : Z) (m : tape_centric) (trajectory : list (state Z Z S BA BN))
      : res (list (list (option string))) :=
    activities <- get_activities_over_time_as_list W Z.leb trajectory ;;
    annotate (length activities) (Z.to_nat n) (map (fun h => (str (fst h), snd h)) (tc_history m)).
End Tape.
Arguments tape_centric Q : clear implicits.

(** ** The head-centric machine. A tape symbol becomes the input of evolve, so its Python type matters. *)
Inductive sym := SNone | SInt (z : Z) | SStr (s : string).
#[export] Instance EqD_sym : EqD sym.
Proof. intros x y. decide equality; [apply Z.eq_dec|apply string_dec]. Defined.

(** what evolve makes of a symbol returned by the input function *)
Definition sym_input (s : sym) : option (inval Z) :=
  match s with SNone => None | SInt z => Some (InVal z) | SStr s => Some (InStr s) end.
(** the value of ctx.input as a dict key *)
Definition input_sym (i : option (nodein Z)) : sym :=
  match i with None => SNone | Some (NVal z) => SInt z | Some (NStr s) => SStr s end.

Section Head.
  Context {Q : Type} `{EqD Q}.
  Context (table : dict Q (dict sym (Q * sym * Z))) (terminating_state : option Q) (max_timesteps : option Z).

  Record head_centric := mkHC { hc_tapes : list (list sym); hc_pos : Z; hc_halt : bool }.

  (** turing_machine.py:66-77 *)
  Definition hc_init (tape : list sym) (initial_head_position : Z) : res head_centric :=
    match terminating_state, max_timesteps with
    | None, None => Err (Raise "a terminating state or the max number of timesteps must be specified")
    | _, _ => Ok (mkHC [tape] initial_head_position false)
    end.

  (** turing_machine.py:79-82 *)
  Definition hc_network : res (network Z Z) :=
    match from_adjacency_matrix nzb [[1]] with (n, Ok _) => Ok n | (_, Err e) => Err e end.

  (** turing_machine.py:84-86 *)
  Definition hc_initial_conditions (initial_head_state : Q) (initial_head_position : Z) : cond Z (Q * Z) :=
    CList [(initial_head_state, initial_head_position)].

  (** turing_machine.py:105-113 *)
  Definition next_pos (direction head_pos : Z) (len : nat) : res Z :=
    if direction =? LEFT then (if Nat.eqb len 0 then Err ZeroDivisionError else Ok ((head_pos - 1) mod Z.of_nat len))
    else if direction =? RIGHT then (if Nat.eqb len 0 then Err ZeroDivisionError else Ok ((head_pos + 1) mod Z.of_nat len))
    else if direction =? STAY then Ok head_pos
    else Err (Raise "unsupported direction").

  (** turing_machine.py:88-103 *)
  Definition hc_rule : @rule Z Z (Q * Z) head_centric Z := fun m ctx =>
    let '(head_state, head_pos) := x_cur ctx in
    ' (next_head_state, val_to_write, direction) <- lookup table head_state (input_sym (x_input ctx)) ;;
    last <- of_opt IndexError (py_nth (hc_tapes m) (-1)) ;;
    new_tape <- of_opt IndexError (py_set_nth last head_pos (fun _ => val_to_write)) ;;
    let halt := match terminating_state with
                | Some q => if eqd next_head_state q then true else hc_halt m
                | None => hc_halt m
                end in
    pos <- next_pos direction head_pos (length new_tape) ;;
    Ok (mkHC (hc_tapes m ++ [new_tape]) pos halt, mkOut (next_head_state, pos) [] []).

  (** turing_machine.py:115-122 *)
  Definition hc_input : @input_fn Z Z (Q * Z) head_centric Z := fun m t a n =>
    if match max_timesteps with Some k => Z.of_nat (length (hc_tapes m)) =? k | None => false end then Ok (m, None)
    else if hc_halt m then Ok (m, None)
    else
      last <- of_opt IndexError (py_nth (hc_tapes m) (-1)) ;;
      s <- of_opt IndexError (py_nth last (hc_pos m)) ;;
      Ok (m, sym_input s).

  (** turing_machine.py:124-130 *)
  Definition hc_activities_for_plotting {BA BN} (W : env Z Z (Q * Z) BA BN) (str : Q -> string) (m : head_centric) (trajectory : list (state Z Z (Q * Z) BA BN))
      : res (list (list sym) * list (list (option string))) :=
    activities <- get_activities_over_time_as_list W Z.leb trajectory ;;
    heads <- rmap (fun h => x <- of_opt IndexError (nth_error h 0) ;; Ok (str (fst x), snd x)) activities ;;
    last <- of_opt IndexError (py_nth (hc_tapes m) (-1)) ;;
    head_activities <- annotate (length (hc_tapes m)) (length last) heads ;;
    Ok (hc_tapes m, head_activities).
End Head.
Arguments mkHC : clear implicits.
