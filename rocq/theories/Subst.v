(** * Subst: model of netomaton/substitution_system.py.

    [A] is the type of the axiom's elements (str or int); [str] is Python's str() on it and [conv] is [dtype], the constructor
    applied to one character. The values of the rule map are strings. *)
From Coq Require Import Ascii.
From Verif Require Import Py Network Evolve Utils.
Open Scope string_scope.
Open Scope list_scope.
Open Scope Z_scope.

Section Subst.
  Context {A V I : Type} (str : A -> string) (conv : ascii -> res A).

  (** substitution_system.py:12 and 18-23; [next(iter({}))] raises StopIteration *)
  Definition get_neighbourhood_size (rules : dict string string) : res Z :=
    match rules with
    | [] => Err (Raise "StopIteration")
    | (k0, _) :: _ =>
        if forallb (fun kv => Nat.eqb (String.length (fst kv)) (String.length k0)) rules
        then Ok (Z.of_nat (String.length k0))
        else Err (Raise "all keys in the rule map must be the same length")
    end.

  (** substitution_system.py:25-34 *)
  Definition init_network (k : Z) (n : Z) : network Z V * res unit :=
    mfor (zrange 0 n) (fun i =>
      mthen (add_edge i i [])
            (mfor (zrange 1 k) (fun j => if i + j <? n then add_edge (i + j) i [] else mret tt))) empty_network.

  (** the fields that do not change: _rules, _neighbourhood_size, _network, _initial_conditions; those that do: *)
  Record subst := mkSS { ss_last : Z; ss_added : Z; ss_time : Z }.

  (** substitution_system.py:6-16 *)
  Definition subst_init (axiom : list A) (rules : dict string string) (constants : list string)
      : res (dict string string * Z * network Z V * subst) :=
    let rules := dupdate rules (fold_left (fun d c => dset d c c) constants []) in
    k <- get_neighbourhood_size rules ;;
    match axiom with
    | [] => Err IndexError
    | _ =>
        let n := Z.of_nat (length axiom) in
        match init_network k n with
        | (net, Ok _) => Ok (rules, k, net, mkSS (n - 1) 0 0)
        | (_, Err e) => Err e
        end
    end.

  (** substitution_system.py:65-69 *)
  Definition get_state (ctx : node_ctx Z V A I) : res string :=
    rfold (fun state w => a <- of_opt KeyError (dget (x_acts ctx) w) ;; Ok (state ++ str a)%string) (x_nbrs ctx) "".

  (** substitution_system.py:47-55, one character *)
  Definition add_char (k : Z) (sa : subst * list (A * dict Z (dict string V) * Z)) (c : ascii)
      : res (subst * list (A * dict Z (dict string V) * Z)) :=
    let '(s, added) := sa in
    let label := ss_last s + 1 in
    let num := ss_added s + 1 in
    let links := fold_left (fun d j => dset d (label - j) []) (zrange 0 (Z.min num k)) [] in
    a <- conv c ;;
    Ok (mkSS label num (ss_time s), added ++ [(a, links, label)]).

  (** substitution_system.py:36-63. The returned None is never stored, as the node is removed. *)
  Definition subst_rule (rules : dict string string) (k : Z) : @rule Z V A subst I := fun s ctx =>
    let s := mkSS (ss_last s) (if ss_time s =? x_time ctx then ss_added s else 0) (x_time ctx) in
    if negb (Z.of_nat (length (x_nbrs ctx)) =? k) then Ok (s, mkOut (x_cur ctx) [] [x_label ctx]) else
    current_state <- get_state ctx ;;
    new_state <- of_opt KeyError (dget rules current_state) ;;
    ' (s', added) <- rfold (add_char k) (list_ascii_of_string new_state) (s, []) ;;
    Ok (s', mkOut (x_cur ctx) added [x_label ctx]).
End Subst.

(** dtype = str: one-character strings *)
Definition str_conv (c : ascii) : res string := Ok (String c "").
(** dtype = int: str() of a one-digit number, and int() of one (ASCII) character *)
Definition digit (z : Z) : string := if (0 <=? z) && (z <=? 9) then String (ascii_of_nat (48 + Z.to_nat z)) "" else "?".
Definition int_conv (c : ascii) : res Z :=
  let n := Z.of_nat (nat_of_ascii c) - 48 in if (0 <=? n) && (n <=? 9) then Ok n else Err ValueError.

Section Output.
  Context {V BA BN : Type}.

  (** substitution_system.py:86-91; [sorted(None)] raises TypeError *)
  Definition to_string (W : env Z V string BA BN) (trajectory : list (state Z V string BA BN)) : res (list string) :=
    rmap (fun st =>
      ac <- Evolve.activities W st ;;
      match ac with
      | None => Err TypeError
      | Some d => xs <- rmap (fun k => of_opt KeyError (dget d k)) (sorted Z.leb (dkeys d)) ;; Ok (String.concat "" xs)
      end) trajectory.

  (** substitution_system.py:79-84, for numbers; [None.items()] raises AttributeError, np.max([]) ValueError *)
  Definition pad (W : env Z V Z BA BN) (trajectory : list (state Z V Z BA BN)) : res (list (list Z)) :=
    activities <- rmap (fun st =>
      ac <- Evolve.activities W st ;;
      match ac with
      | None => Err (Raise "AttributeError")
      | Some d => rmap (fun k => of_opt KeyError (dget d k)) (sorted Z.leb (dkeys d))
      end) trajectory ;;
    match activities with
    | [] => Err ValueError
    | _ => let max_len := fold_left Nat.max (map (@length Z) activities) 0%nat in
           Ok (map (fun a => a ++ repeat 0 (max_len - length a)) activities)
    end.
End Output.
