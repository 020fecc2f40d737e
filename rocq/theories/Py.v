(** * Py: the fragment of Python used by the model.

    Exceptions are values, a [dict] is an association list in insertion order
    (netomaton relies on insertion order, see /repo/netomaton/evolution.py:234-236),
    and list indexing follows Python's rule for negative indices. *)

From Coq Require Export String Arith ZArith Lia Bool Permutation List.
Export ListNotations.

(** ** Decidable equality of labels / keys *)

Class EqD (A : Type) := eqd : forall x y : A, {x = y} + {x <> y}.

#[export] Instance EqD_Z : EqD Z := Z.eq_dec.
#[export] Instance EqD_nat : EqD nat := Nat.eq_dec.
#[export] Instance EqD_string : EqD string := string_dec.
#[export] Instance EqD_bool : EqD bool := bool_dec.
#[export] Instance EqD_list {A} `{EqD A} : EqD (list A) := list_eq_dec eqd.
#[export] Instance EqD_prod {A B} `{EqD A} `{EqD B} : EqD (A * B).
Proof. intros [a b] [c d]. destruct (eqd a c) as [->|Hne].
  - destruct (eqd b d) as [->|Hne]; [left; reflexivity | right; congruence].
  - right; congruence.
Defined.
#[export] Instance EqD_option {A} `{EqD A} : EqD (option A).
Proof. intros [a|] [b|]; try (right; congruence); try (left; reflexivity).
  destruct (eqd a b) as [->|Hne]; [left; reflexivity | right; congruence].
Defined.

Definition eqb {A} `{EqD A} (x y : A) : bool := if eqd x y then true else false.

(** ** Exceptions as values *)

(** The exception classes the modelled code can raise. [OutOfFuel] is not a Python exception: it is the
    value of a fuelled loop that was cut off. [Unmodelled] marks inputs outside the modelled fragment. *)
Inductive exn :=
| KeyError | IndexError | ValueError | TypeError | ZeroDivisionError | AssertionError
| OverflowError
| Raise (msg : string)
| OutOfFuel
| Unmodelled.

Inductive res (A : Type) :=
| Ok (a : A)
| Err (e : exn).
Arguments Ok {A} a.
Arguments Err {A} e.

Definition rbind {A B} (m : res A) (f : A -> res B) : res B :=
  match m with Ok a => f a | Err e => Err e end.

Declare Scope py_scope.
Delimit Scope py_scope with py.
Notation "x <- m ;; k" := (rbind m (fun x => k))
  (at level 61, m at next level, right associativity) : py_scope.
Notation "' p <- m ;; k" := (rbind m (fun p => k))
  (at level 61, p pattern, m at next level, right associativity) : py_scope.
Open Scope py_scope.

Definition of_opt {A} (e : exn) (o : option A) : res A :=
  match o with Some a => Ok a | None => Err e end.

Definition is_ok {A} (r : res A) : bool := match r with Ok _ => true | Err _ => false end.

(** A Python list comprehension / loop whose body may raise. *)
Section RMap.
  Context {A B : Type} (f : A -> res B).
  Fixpoint rmap (l : list A) : res (list B) :=
    match l with
    | [] => Ok []
    | x :: xs => y <- f x ;; ys <- rmap xs ;; Ok (y :: ys)
    end.
End RMap.

Fixpoint rfold {A S} (f : S -> A -> res S) (l : list A) (s : S) : res S :=
  match l with
  | [] => Ok s
  | x :: xs => s' <- f s x ;; rfold f xs s'
  end.

(** ** Python dict *)

Notation dict K V := (list (K * V)) (only parsing).

Section Dict.
  Context {K V : Type} `{EqD K}.

  (** [d[k]] / [k in d] *)
  Fixpoint dget (d : dict K V) (k : K) : option V :=
    match d with
    | [] => None
    | (k', v) :: d' => if eqd k k' then Some v else dget d' k
    end.

  Definition dmem (d : dict K V) (k : K) : bool :=
    match dget d k with Some _ => true | None => false end.

  (** [d[k] = v]: an existing key keeps its position, a new key goes to the end. *)
  Fixpoint dset (d : dict K V) (k : K) (v : V) : dict K V :=
    match d with
    | [] => [(k, v)]
    | (k', v') :: d' => if eqd k k' then (k', v) :: d' else (k', v') :: dset d' k v
    end.

  (** [del d[k]] *)
  Fixpoint ddel (d : dict K V) (k : K) : dict K V :=
    match d with
    | [] => []
    | (k', v') :: d' => if eqd k k' then ddel d' k else (k', v') :: ddel d' k
    end.

  Definition dkeys (d : dict K V) : list K := map fst d.
  Definition dvals (d : dict K V) : list V := map snd d.

  (** [d.update(e)] *)
  Definition dupdate (d e : dict K V) : dict K V :=
    fold_left (fun acc kv => dset acc (fst kv) (snd kv)) e d.

  (** in-place change of the value stored under an existing key *)
  Definition dmod (d : dict K V) (k : K) (f : V -> V) : dict K V :=
    map (fun kv => if eqd k (fst kv) then (fst kv, f (snd kv)) else kv) d.

  (** Python's [d1 == d2] on dicts: same keys, same values, order ignored. *)
  Definition deq (d1 d2 : dict K V) : Prop := forall k, dget d1 k = dget d2 k.

End Dict.

(** ** Python list indexing with negative wrap-around: [l[i]] and [l[i] = x] *)

Definition py_index (len : nat) (i : Z) : option nat :=
  if (0 <=? i)%Z && (i <? Z.of_nat len)%Z then Some (Z.to_nat i)
  else if (- Z.of_nat len <=? i)%Z && (i <? 0)%Z then Some (Z.to_nat (i + Z.of_nat len))
  else None.

Definition py_nth {A} (l : list A) (i : Z) : option A :=
  match py_index (length l) i with
  | Some k => nth_error l k
  | None => None
  end.

Fixpoint upd_nth {A} (l : list A) (k : nat) (f : A -> A) : list A :=
  match l, k with
  | [], _ => []
  | x :: xs, 0 => f x :: xs
  | x :: xs, S k' => x :: upd_nth xs k' f
  end.

Definition py_set_nth {A} (l : list A) (i : Z) (f : A -> A) : option (list A) :=
  match py_index (length l) i with
  | Some k => Some (upd_nth l k f)
  | None => None
  end.

(** [range(a, b)] over integers *)
Definition zrange (a b : Z) : list Z :=
  map (fun k => (a + Z.of_nat k)%Z) (seq 0 (Z.to_nat (b - a))).

(** [enumerate(l)] *)
Definition enumerate {A} (l : list A) : list (nat * A) := combine (seq 0 (length l)) l.

(** [list.index(x)] *)
Fixpoint py_find {A} `{EqD A} (l : list A) (x : A) : option nat :=
  match l with
  | [] => None
  | y :: ys => if eqd x y then Some 0 else option_map S (py_find ys x)
  end.

Fixpoint zsum (l : list Z) : Z :=
  match l with [] => 0%Z | x :: xs => (x + zsum xs)%Z end.
Definition count {A} `{EqD A} (l : list A) (x : A) : nat := length (filter (fun y => eqb x y) l).
