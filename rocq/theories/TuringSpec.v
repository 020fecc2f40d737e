(** * Turing machines on a circular tape *)
From Verif Require Import Py.
Open Scope list_scope.
Open Scope Z_scope.

Section Machine.
  Context {Q S : Type} `{EqD Q} `{EqD S}.

  (** head state, head position, tape *)
  Record conf := mkConf { cf_q : Q; cf_p : Z; cf_tape : list S }.

  (** what the table says about a state and a symbol *)
  Definition entry (table : dict Q (dict S (Q * S * Z))) (q : Q) (s : S) : option (Q * S * Z) :=
    match dget table q with Some row => dget row s | None => None end.

  (** 0 is left, 1 is stay, 2 is right *)
  Definition move (d : Z) : option Z := if (0 <=? d) && (d <=? 2) then Some (d - 1) else None.

  (** one step; nothing if there is no entry or the direction is none of the three *)
  Definition next (table : dict Q (dict S (Q * S * Z))) (c : conf) : option conf :=
    match nth_error (cf_tape c) (Z.to_nat (cf_p c)) with
    | None => None
    | Some s =>
        match entry table (cf_q c) s with
        | None => None
        | Some (q', s', d) =>
            match move d with
            | None => None
            | Some m => Some (mkConf q' ((cf_p c + m) mod Z.of_nat (length (cf_tape c)))
                               (firstn (Z.to_nat (cf_p c)) (cf_tape c) ++ s' :: skipn (Z.to_nat (cf_p c) + 1) (cf_tape c)))
            end
        end
    end.

  (** [cs] are successive configurations starting with [c] *)
  Definition run_from (table : dict Q (dict S (Q * S * Z))) (c : conf) (cs : list conf) : Prop :=
    nth_error cs 0 = Some c /\
    forall i a b, nth_error cs i = Some a -> nth_error cs (i + 1) = Some b -> next table a = Some b.
End Machine.
Arguments conf Q S : clear implicits.
