(** * Rules: model of netomaton/rules/activity_rule.py.

    A Python str is the list of its characters. Activities are integers (the states of these rules). numpy's integer
    overflow is not modelled. *)
From Coq Require Import Ascii.
From Verif Require Import Py Network Evolve.
Open Scope list_scope.
Open Scope Z_scope.

Notation str := (list ascii).
#[export] Instance EqD_ascii : EqD ascii := ascii_dec.

(** ** Numbers as strings *)

(** [while num: res.append(num % base); num //= base] of np.base_repr (numpy 1.15.4) and of bin(); least significant first *)
Fixpoint digits_loop (base : Z) (fuel : nat) (num : Z) : list Z :=
  match fuel with
  | O => []
  | S f => if num =? 0 then [] else (num mod base) :: digits_loop base f (num / base)
  end.
(** [1 + log2 num] iterations are enough for every base >= 2 *)
Definition digits_fuel (num : Z) : nat := S (Z.to_nat (Z.log2 num)).

(** the digit characters '0'..'9', 'A'..'Z' *)
Definition digit_char (d : Z) : ascii := ascii_of_N (Z.to_N (if d <? 10 then 48 + d else 55 + d)).

(** int(c, base) for a single character *)
Definition int_of_char (c : ascii) (base : Z) : res Z :=
  let n := Z.of_N (N_of_ascii c) in
  let d := if (48 <=? n) && (n <=? 57) then n - 48
           else if (65 <=? n) && (n <=? 90) then n - 55
           else if (97 <=? n) && (n <=? 122) then n - 87 else base in
  if d <? base then Ok d else Err ValueError.

(** np.base_repr(number, base) *)
Definition base_repr (number base : Z) : res str :=
  if (36 <? base) || (base <? 2) then Err ValueError else
  let ds := rev (map digit_char (digits_loop base (digits_fuel (Z.abs number)) (Z.abs number))) in
  let sign := if number <? 0 then ["-"%char] else [] in
  Ok (sign ++ match ds with [] => ["0"%char] | _ => ds end).

(** str.zfill(width): zeros on the left, after a sign *)
Definition zfill (s : str) (width : Z) : str :=
  let zs := repeat "0"%char (Z.to_nat (width - Z.of_nat (length s))) in
  match s with
  | c :: s' => if ascii_dec c "-" then c :: zs ++ s' else if ascii_dec c "+" then c :: zs ++ s' else zs ++ s
  | [] => zs
  end.

(** ** Rules *)
Section Rules.
  Context {L V I : Type}.
  Notation ctx := (node_ctx L V Z I).

  (** activity_rule.py:22-30. The sum of an empty array is a float, which cannot index a str. *)
  Definition totalistic_ca (k rule : Z) (x : ctx) : res Z :=
    let nb := x_nacts x in
    let n := Z.of_nat (length nb) in
    s <- base_repr rule k ;;
    let rule_string := zfill s (n * (k - 1) + 1) in
    if n * (k - 1) + 1 <? Z.of_nat (length rule_string) then Err (Raise "rule number out of range") else
    match nb with
    | [] => Err TypeError
    | _ => c <- of_opt IndexError (py_nth rule_string (n * (k - 1) - zsum nb)) ;; int_of_char c k
    end.

  (** Counter(data) as (value, frequency) pairs in order of first appearance *)
  Definition counter (l : list Z) : dict Z nat :=
    fold_left (fun d x => dset d x (S (match dget d x with Some c => c | None => 0%nat end))) l [].
  (** Counter.most_common(): a stable sort by decreasing frequency *)
  Fixpoint insert_common (p : Z * nat) (l : list (Z * nat)) : list (Z * nat) :=
    match l with
    | [] => [p]
    | q :: l' => if (snd q <? snd p)%nat then p :: q :: l' else q :: insert_common p l'
    end.
  Definition most_common (d : dict Z nat) : list (Z * nat) := fold_left (fun acc p => insert_common p acc) d [].
  (** statistics._counts (Python 3.6): the values of the highest frequency *)
  Definition top_counts (l : list Z) : list (Z * nat) :=
    match most_common (counter l) with
    | [] => []
    | p :: t => p :: (fix prefix (t : list (Z * nat)) := match t with
                                                        | [] => []
                                                        | q :: t' => if Nat.eqb (snd q) (snd p) then q :: prefix t' else []
                                                        end) t
    end.

  (** activity_rule.py:34-47; [draw] is the index np.random.choice picks, taken modulo the length *)
  Definition majority_rule (draw : nat) (x : ctx) : res Z :=
    match top_counts (x_nacts x) with
    | [(v, _)] => Ok v
    | _ => match x_nacts x with
           | [] => Err ValueError
           | l => of_opt IndexError (nth_error l (draw mod length l))
           end
    end.

  (** activity_rule.py:50-62 *)
  Definition bits_to_int (bits : list Z) : Z :=
    fold_left (fun total sj => if snd sj =? 0 then total else total + Z.shiftl 1 (Z.of_nat (fst sj))) (enumerate (rev bits)) 0.

  (** bin(num)[2:] as numbers: of a negative number it starts with 'b', which int() rejects *)
  Definition bin_digits (num : Z) : res (list Z) :=
    if num <? 0 then Err ValueError else
    Ok (match rev (digits_loop 2 (digits_fuel num) num) with [] => [0] | ds => ds end).

  (** activity_rule.py:65-77; np.pad rejects a negative width *)
  Definition int_to_bits (num num_digits : Z) : res (list Z) :=
    converted <- bin_digits num ;;
    let w := num_digits - Z.of_nat (length converted) in
    if w <? 0 then Err ValueError else Ok (repeat 0 (Z.to_nat w) ++ converted).

  (** activity_rule.py:105-113; [nks] is scheme == 'nks' *)
  Definition binary_ca_rule (rule : Z) (nks : bool) (x : ctx) : res Z :=
    let state_int := bits_to_int (x_nacts x) in
    let n := 2 ^ Z.of_nat (length (x_nacts x)) in
    arr <- int_to_bits rule n ;;
    of_opt IndexError (py_nth arr (if nks then (n - 1) - state_int else state_int)).

  (** activity_rule.py:116-125 *)
  Definition nks_ca_rule (rule : Z) : ctx -> res Z := binary_ca_rule rule true.

  (** activity_rule.py:128-150 *)
  Definition game_of_life_rule (x : ctx) : res Z :=
    let total := zsum (x_nacts x) in
    if x_cur x =? 1 then
      if total - 1 <? 2 then Ok 0
      else if (total - 1 =? 2) || (total - 1 =? 3) then Ok 1
      else Ok 0
    else if total =? 3 then Ok 1 else Ok 0.

  (** activity_rule.py:153-169; None for any other state *)
  Definition wireworld_rule (x : ctx) : option Z :=
    if x_cur x =? 0 then Some 0
    else if x_cur x =? 1 then Some 2
    else if x_cur x =? 2 then Some 3
    else if x_cur x =? 3 then
      let heads := count (x_nacts x) 1 in
      Some (if Nat.eqb heads 1 || Nat.eqb heads 2 then 1 else 3)
    else None.
End Rules.
