(** * RuleTables: model of netomaton/rule_tables.py.

    Random draws are oracles: [coin i] is the outcome of the test [random.random() < 1 - lambda_val] for the i-th state, and
    random.choice(l) is element [pick i mod len(l)] of [l], so every outcome of the draws is some pair of oracles. The value of lambda is
    a number of an arbitrary type [F] (a float in the code): [quot a b] is the division a / b, [flt] and [feq] are < and ==. *)
From Coq Require Import Ascii.
From Verif Require Import Py Network Evolve Rules.
Open Scope list_scope.
Open Scope Z_scope.

Notation table := (dict str Z).

(** str(x) for an int *)
Definition py_str (x : Z) : str := match base_repr x 10 with Ok s => s | Err _ => [] end.

(** rule_tables.py:16-21 *)
Definition table_rule {L V I} (t : table) (x : node_ctx L V Z I) : res Z :=
  let state_repr := List.concat (map py_str (x_nacts x)) in
  match dget t state_repr with Some v => Ok v | None => Err (Raise "could not find state in table") end.

(** len(set(state)) == 1 *)
Definition one_symbol (s : str) : bool := Nat.eqb (length (nodup ascii_dec s)) 1.

(** random.choice *)
Definition choice {A} (pick : nat -> nat) (i : nat) (l : list A) : res A := of_opt IndexError (nth_error l (pick i mod length l)).

(** rule_tables.py:50, 127 *)
Definition other_states (k q : Z) : list Z := filter (fun x => negb (x =? q)) (zrange 0 k).

Section Tables.
  Context {F : Type} (quot : Z -> Z -> F) (flt feq : F -> F -> bool) (coin : nat -> bool) (pick : nat -> nat).

  (** rule_tables.py:39-42; k**n is a float, which range rejects, when n is negative *)
  Definition all_states (k r : Z) : res (list str) :=
    let n := 2 * r + 1 in
    if n <? 0 then Err TypeError else rmap (fun i => s <- base_repr i k ;; Ok (zfill s n)) (zrange 0 (k ^ n)).

  (** rule_tables.py:52-68: one state; the accumulator holds the table, quiescent_state_count and the number of states done *)
  Definition random_entry (k q : Z) (strong isotropic : bool) (acc : table * Z * nat) (state : str) : res (table * Z * nat) :=
    let '(t, c, i) := acc in
    let counted v := if v =? q then c + 1 else c in
    ' (v, c') <-
      (if strong && one_symbol state then
         ch <- of_opt IndexError (py_nth state 0) ;; v <- int_of_char ch k ;; Ok (v, counted v)
       else match (if isotropic then dget t (rev state) else None) with
            | Some v => Ok (v, counted v)
            | None => if coin i then Ok (q, c + 1) else v <- choice pick i (other_states k q) ;; Ok (v, c)
            end) ;;
    Ok (dset t state v, c', S i).

  (** rule_tables.py:24-70; [qdraw] is the drawn quiescent state. The default of lambda_val only enters through [coin]. *)
  Definition random_rule_table (k r : Z) (quiescent : option Z) (qdraw : Z) (strong isotropic : bool) : res (table * F * Z) :=
    states <- all_states k r ;;
    let q := match quiescent with Some q => q | None => qdraw end in
    if negb ((0 <=? q) && (q <=? k - 1)) then Err (Raise "quiescent state must be a number in {0,...,k - 1}") else
    ' (t, c, _) <- rfold (random_entry k q strong isotropic) states ([], 0, 0%nat) ;;
    Ok (t, quot (k ^ (2 * r + 1) - c) (k ^ (2 * r + 1)), q).

  (** rule_tables.py:91-94 *)
  Definition actual_lambda (k r q : Z) (t : table) : F :=
    quot (k ^ (2 * r + 1) - Z.of_nat (count (dvals t) q)) (k ^ (2 * r + 1)).

  (** rule_tables.py:111-114, 128-131 *)
  Definition perturb (isotropic : bool) (t : table) (s : str) (v : Z) : table :=
    let t1 := dset t s v in if isotropic then dset t1 (rev s) v else t1.

  (** rule_tables.py:103-107, 120-123 *)
  Definition candidates (strong : bool) (p : Z -> bool) (t : table) : list str :=
    let l := filter (fun s => match dget t s with Some v => p v | None => false end) (dkeys t) in
    if strong then filter (fun s => negb (one_symbol s)) l else l.

  (** rule_tables.py:100-114; the fuel bounds the number of tests of the while condition *)
  Fixpoint reduce (k r q : Z) (strong isotropic : bool) (target : F) (fuel attempts : nat) (t : table) : res table :=
    match fuel with
    | O => Err OutOfFuel
    | S f =>
      if flt target (actual_lambda k r q t) && Nat.ltb attempts (length t) then
        match candidates strong (fun v => negb (v =? q)) t with
        | [] => Ok t
        | l => s <- choice pick (2 * attempts) l ;; reduce k r q strong isotropic target f (S attempts) (perturb isotropic t s q)
        end
      else Ok t
    end.

  (** rule_tables.py:117-131 *)
  Fixpoint increase (k r q : Z) (strong isotropic : bool) (target : F) (fuel attempts : nat) (t : table) : res table :=
    match fuel with
    | O => Err OutOfFuel
    | S f =>
      if flt (actual_lambda k r q t) target && Nat.ltb attempts (length t) then
        match candidates strong (fun v => v =? q) t with
        | [] => Ok t
        | l => s <- choice pick (2 * attempts) l ;; v <- choice pick (2 * attempts + 1) (other_states k q) ;;
               increase k r q strong isotropic target f (S attempts) (perturb isotropic t s v)
        end
      else Ok t
    end.

  (** rule_tables.py:73-132; the table is changed in place and returned *)
  Definition table_walk_through (fuel : nat) (t : table) (target : F) (k r q : Z) (strong isotropic : bool) : res (table * F) :=
    if feq (actual_lambda k r q t) target then Ok (t, actual_lambda k r q t) else
    t' <- (if flt target (actual_lambda k r q t) then reduce k r q strong isotropic target fuel 0 t
           else if flt (actual_lambda k r q t) target then increase k r q strong isotropic target fuel 0 t
           else Ok t) ;;
    Ok (t', actual_lambda k r q t').
End Tables.
