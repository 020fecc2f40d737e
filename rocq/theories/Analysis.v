(** * Analysis: model of netomaton/analysis.py. A string is a list of symbols; floats are reals. *)
From Coq Require Import Reals.
From Verif Require Import Py Network Evolve Utils.
Open Scope string_scope.
Open Scope list_scope.
Open Scope Z_scope.

Definition Rsum (l : list R) : R := fold_right Rplus 0%R l.
(** math.log(x, 2.0), np.log2(x) *)
Definition log2 (x : R) : R := (ln x / ln 2)%R.
(** a / b for two counts *)
Definition ratio (a b : nat) : R := (INR a / INR b)%R.

(** np.mean of a list; the mean of nothing is nan, [None] here *)
Definition np_mean (l : list R) : option R := match l with [] => None | _ => Some (Rsum l / INR (length l))%R end.

Section Strings.
  Context {X : Type} `{EqD X}.

  (** dict.fromkeys(list(string)), the keys *)
  Definition fromkeys (s : list X) : list X := dkeys (fold_left (fun d x => dset d x tt) s []).

  (** analysis.py:7-18; [count] is str.count of one symbol *)
  Definition shannon_entropy (string : list X) : R :=
    let symbols := fromkeys string in
    let symbol_probabilities := map (fun symbol => ratio (count string symbol) (length string)) symbols in
    let H := (- Rsum (map (fun p_symbol => p_symbol * log2 p_symbol) symbol_probabilities))%R in
    (H + 0)%R.

  (** X == x for an array of symbols *)
  Definition np_eq (xs : list X) (x : X) : list bool := map (fun y => eqb y x) xs.
End Strings.

(** np.logical_and of two one-dimensional arrays: equal lengths, or one of length 1 that is broadcast *)
Definition logical_and (a b : list bool) : res (list bool) :=
  if (length a =? length b)%nat then Ok (map (fun p => fst p && snd p) (combine a b)) else
  match a, b with
  | [x], _ => Ok (map (andb x) b)
  | _, [y] => Ok (map (fun x => x && y) a)
  | _, _ => Err ValueError
  end.
(** np.mean of a boolean array that is not empty *)
Definition np_mean_bool (l : list bool) : R := ratio (length (filter (fun b => b) l)) (length l).

Section Joint.
  Context {X Y : Type} `{EqD X} `{EqD Y}.
  (** the orders in which Python iterates over set(X) and set(Y) *)
  Context (set_x : list X -> list X) (set_y : list Y -> list Y).

  (** analysis.py:49-65 *)
  Definition joint_shannon_entropy (stringX : list X) (stringY : list Y) : res R :=
    joint_symbol_probabilities <- rfold (fun acc x => rfold (fun acc y =>
        m <- logical_and (np_eq stringX x) (np_eq stringY y) ;; Ok (acc ++ [np_mean_bool m])) (set_y stringY) acc) (set_x stringX) [] ;;
    Ok (Rsum (map (fun p => - p * log2 p)%R (filter (fun p => if Req_EM_T p 0 then false else true) joint_symbol_probabilities))).

  (** analysis.py:68-78 *)
  Definition mutual_information (stringX : list X) (stringY : list Y) : res R :=
    j <- joint_shannon_entropy stringX stringY ;; Ok (shannon_entropy stringX + shannon_entropy stringY - j)%R.
End Joint.

Section Averages.
  Context {L V A BA BN X : Type} `{EqD L} `{EqD X}.
  Context (W : env L V A BA BN) (leb : L -> L -> bool).
  Context (str : A -> list X) (set_x : list X -> list X).

  (** a trajectory, or a list of rows of activities *)
  Definition data := (list (state L V A BA BN) + list (list A))%type.

  (** analysis.py:33-39 and 100-106 *)
  Definition activities_of (trajectory_or_activities : data) : res (list (list A)) :=
    match trajectory_or_activities with
    | inl [] | inr [] => Err (Raise "there are no activities")
    | inl trajectory => get_activities_over_time_as_list W leb trajectory
    | inr activities => Ok activities
    end.

  (** analysis.py:43 and 112, the states of node [i] joined into one string *)
  Definition node_states_over_time (activities : list (list A)) (i : nat) : res (list X) :=
    column <- rmap (fun y => of_opt IndexError (nth_error y i)) activities ;; Ok (flat_map str column).

  (** analysis.py:21-46 *)
  Definition average_node_entropy (trajectory_or_activities : data) : res (option R) :=
    activities <- activities_of trajectory_or_activities ;;
    row0 <- of_opt IndexError (nth_error activities 0) ;;
    entropies <- rmap (fun i => s <- node_states_over_time activities i ;; Ok (shannon_entropy s)) (seq 0 (length row0)) ;;
    Ok (np_mean entropies).

  (** s[:-d] and s[d:] for d > 0 *)
  Definition but_last (d : nat) (s : list X) : list X := firstn (length s - d) s.

  (** analysis.py:81-115 *)
  Definition average_mutual_information (trajectory_or_activities : data) (temporal_distance : Z) : res (option R) :=
    activities <- activities_of trajectory_or_activities ;;
    row0 <- of_opt IndexError (nth_error activities 0) ;;
    let num_cols := length row0 in
    if negb ((0 <? temporal_distance) && (temporal_distance <? Z.of_nat num_cols))
    then Err (Raise "the temporal distance must be greater than 0 and less than the number of time steps") else
    let d := Z.to_nat temporal_distance in
    mutual_informations <- rmap (fun i => s <- node_states_over_time activities i ;; mutual_information set_x set_x (but_last d s) (skipn d s)) (seq 0 num_cols) ;;
    Ok (np_mean mutual_informations).
End Averages.
