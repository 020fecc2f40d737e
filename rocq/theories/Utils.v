(** * Utils: model of the parts of netomaton/utils.py that compute (not draw), and of the initial condition builders of
    netomaton/evolution.py:444-495. *)
From Verif Require Import Py Network Evolve Rules.
Open Scope string_scope.
Open Scope list_scope.
Open Scope Z_scope.

(** sorted(l) for a list of labels compared by [leb] *)
Section Sort.
  Context {L : Type} (leb : L -> L -> bool).
  Fixpoint insert (x : L) (l : list L) : list L :=
    match l with
    | [] => [x]
    | y :: ys => if leb x y then x :: y :: ys else y :: insert x ys
    end.
  Fixpoint sorted (l : list L) : list L :=
    match l with [] => [] | x :: xs => insert x (sorted xs) end.
End Sort.

Section Activities.
  Context {L V A BA BN : Type} `{EqD L}.
  Context (W : env L V A BA BN) (leb : L -> L -> bool).

  (** utils.py:30-39 *)
  Definition get_activities_over_time_as_list (trajectory : list (state L V A BA BN)) : res (list (list A)) :=
    rfold (fun activities state =>
      ac <- Evolve.activities W state ;;
      match ac with
      | None | Some [] => Ok activities
      | Some ac => row <- rmap (fun a => of_opt KeyError (dget ac a)) (sorted leb (dkeys ac)) ;; Ok (activities ++ [row])
      end) trajectory [].
End Activities.

(** math.factorial: 1 * 2 * ... * n *)
Definition factorial (n : Z) : Z := fold_left Z.mul (zrange 1 (n + 1)) 1.

(** utils.py:460-478; the arguments are ints *)
Definition ncr (n r : Z) : res Z :=
  if n <? 0 then Err (Raise "n must be a non-negative int") else
  if r <? 0 then Err (Raise "r must be a non-negative int") else
  if n <? r then Ok 0 else
  Ok (factorial n / factorial r / factorial (n - r)).

(** utils.py:505-517; each activity is a list of ints of which the first one counts *)
Definition binarize_for_plotting (activities : list (list Z)) : res (list (list Z)) :=
  activities <- rmap (fun a => x <- of_opt IndexError (py_nth a 0) ;; bin_digits x) activities ;;
  match activities with
  | [] => Err ValueError
  | _ => let max_len := list_max (map (@length Z) activities) in
         Ok (map (fun a => repeat 0 (max_len - length a) ++ a) activities)
  end.

(** ** Initial conditions (evolution.py). dtype is the default [np.int]; the array values are ints. *)

(** np.zeros *)
Definition np_zeros (size : Z) : res (list Z) := if size <? 0 then Err ValueError else Ok (repeat 0 (Z.to_nat size)).

(** evolution.py:444-454 *)
Definition init_simple (size val : Z) : res (list Z) :=
  x <- np_zeros size ;;
  of_opt IndexError (py_set_nth x (Z.of_nat (length x) / 2) (fun _ => val)).

(** evolution.py:457-480; [rand k m] is the outcome of np.random.randint(k, size=m) *)
Definition init_random (rand : Z -> Z -> list Z) (size k : Z) (n_randomized : option Z) (empty_value : Z) : res (list Z) :=
  let n_randomized := match n_randomized with None => size | Some n => n end in
  if (size <? n_randomized) || (n_randomized <? 0)
  then Err (Raise "the number of randomized sites, if specified, must be >= 0 and <= size") else
  let pad_left := (size - n_randomized) / 2 in
  let pad_right := (size - n_randomized) - pad_left in
  if k <=? 0 then Err ValueError else
  let rand_nums := rand k n_randomized in
  Ok (repeat empty_value (Z.to_nat pad_left) ++ rand_nums ++ repeat empty_value (Z.to_nat pad_right)).

(** evolution.py:483-495 *)
Definition init_simple2d (rows cols val : Z) : res (list Z) :=
  if (rows <? 0) || (cols <? 0) then Err ValueError else
  let x := repeat (repeat 0 (Z.to_nat cols)) (Z.to_nat rows) in
  row <- of_opt IndexError (py_nth x (rows / 2)) ;;
  row' <- of_opt IndexError (py_set_nth row (cols / 2) (fun _ => val)) ;;
  x' <- of_opt IndexError (py_set_nth x (rows / 2) (fun _ => row')) ;;
  Ok (concat x').
