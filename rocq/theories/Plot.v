(** * Plot: the data computed by the plotting functions of netomaton/utils.py and netomaton/vis/vis_utils.py. What matplotlib and
    the browser draw from the data is not modelled. *)
From Verif Require Import Py Network.
Open Scope string_scope.
Open Scope list_scope.
Open Scope Z_scope.

(** ** utils.py:432-448 (plot_degree_distribution): the pairs (x, height) given to plt.bar *)
Section DegreeDistribution.
  Context {L V : Type} `{EqD L}.

  (** utils.py:434-440 *)
  Definition dd_degree (net : network L V) (use_in use_out : bool) (node : L) : res Z :=
    if use_in then in_degree net node else if use_out then out_degree net node else degree net node.
  (** utils.py:442-444 *)
  Definition dd_count (counts : dict Z Z) (d : Z) : res (dict Z Z) :=
    let counts := if dmem counts d then counts else dset counts d 0 in
    c <- of_opt KeyError (dget counts d) ;; Ok (dset counts d (c + 1)).
  (** max(degree_counts) *)
  Definition dd_max (counts : dict Z Z) : res Z :=
    match dkeys counts with [] => Err ValueError | d :: ds => Ok (fold_left Z.max ds d) end.
  Definition degree_distribution (net : network L V) (use_in use_out : bool) : res (list (Z * Z)) :=
    counts <- rfold (fun counts node => d <- dd_degree net use_in use_out node ;; dd_count counts d) (nodes net) [] ;;
    m <- dd_max counts ;;
    Ok (map (fun i => (i, match dget counts i with Some c => c | None => 0 end)) (zrange 1 (m + 1))).
End DegreeDistribution.

(** ** utils.py:491-502 (_render_L_system): the symbols are the characters of the state's string; an instruction (a callable or
    a tuple of a function and arguments) acts on some state and may raise *)
Section Render.
  Context {C S : Type} `{EqD C}.
  Definition instruction := S -> S * res unit.
  (** utils.py:494-496 *)
  Inductive binding := One (i : instruction) | Many (l : list instruction).
  Definition instructions_of (b : binding) : list instruction := match b with One i => [i] | Many l => l end.
  (** utils.py:497-502 *)
  Fixpoint execute (l : list instruction) (s : S) : S * res unit :=
    match l with
    | [] => (s, Ok tt)
    | i :: l => match i s with (s', Ok _) => execute l s' | (s', Err e) => (s', Err e) end
    end.
  Fixpoint render (bindings : dict C binding) (word : list C) (s : S) : S * res unit :=
    match word with
    | [] => (s, Ok tt)
    | c :: word =>
        match dget bindings c with
        | None => (s, Err KeyError)
        | Some b => match execute (instructions_of b) s with (s', Ok _) => render bindings word s' | (s', Err e) => (s', Err e) end
        end
    end.
End Render.
Arguments instruction : clear implicits.
Arguments binding : clear implicits.
Arguments One {S}. Arguments Many {S}.

(** ** Activities as pictures. Activities are ints; a table is a list of rows. *)
(** utils.py:149-154: rows of zeros are appended until the frame is as long as the table *)
Definition frame1 (activities : list (list Z)) (i : nat) : list (list Z) :=
  let new_activity := firstn (i + 1) activities in
  new_activity ++ repeat (repeat 0 (match activities with a :: _ => length a | [] => 0%nat end)) (length activities - length new_activity).

(** numpy C-order reshape of [l] to [k] rows of [c] *)
Fixpoint chunks {A} (k c : nat) (l : list A) : list (list A) :=
  match k with O => [] | S k => firstn c l :: chunks k c (skipn c l) end.
(** np.reshape(activities, (T, r, c)) for a table of T rows; negative dimensions are not modelled. Rows of different lengths give an array
    of T objects, which fits only if r * c = 1 (not modelled). *)
Definition np_reshape3 (activities : list (list Z)) (r c : Z) : res (list (list (list Z))) :=
  if (r <? 0) || (c <? 0) then Err Unmodelled
  else
    let T := length activities in
    let w := match activities with a :: _ => length a | [] => 0%nat end in
    if negb (forallb (fun a => Nat.eqb (length a) w) activities) then if r * c =? 1 then Err Unmodelled else Err ValueError
    else if negb (Z.of_nat (length (concat activities)) =? Z.of_nat T * (r * c)) then Err ValueError
    else Ok (map (chunks (Z.to_nat r) (Z.to_nat c)) (chunks T (Z.to_nat (r * c)) (concat activities))).

(** utils.py:145-160 *)
Definition reshape_for_animation (activities : list (list Z)) (shape : list Z) : res (list (list (list Z))) :=
  match shape with
  | [n] =>
      match activities with
      | [] => Err IndexError
      | a :: _ => if n =? Z.of_nat (length a) then Ok (map (frame1 activities) (seq 0 (length activities))) else Err AssertionError
      end
  | [r; c] => np_reshape3 activities r c
  | _ => Err (Raise "shape must be a tuple of length 1 or 2")
  end.

(** utils.py:16-27, 42-45: the picture given to plt.imshow, for an activities list and the default slice=-1. After
    _reshape_for_animation, the second reshape to the same (T, r, c) changes nothing. *)
Definition plot_activities (activities : list (list Z)) (shape : option (list Z)) : res (list (list Z)) :=
  match activities with
  | [] => Err (Raise "there are no activities")
  | _ =>
      match shape with
      | None => Ok activities
      | Some shape =>
          frames <- reshape_for_animation activities shape ;;
          match shape with
          | [_; _] => of_opt IndexError (nth_error (rev frames) 0)
          | _ => Err IndexError
          end
      end
  end.

(** utils.py:115-123: the index of the frame shown by the next update, for T frames *)
Definition next_frame (T i : Z) : Z := let i := i + 1 in if i =? T then 0 else i.
Fixpoint shown (T : Z) (k : nat) : Z := match k with O => 0 | S k => next_frame T (shown T k) end.

(** ** utils.py:345-349 (poincare_plot), one series: the pairs (x, y) *)
(** [a[-timesteps:]] *)
Definition last_slice {A} (a : list A) (timesteps : Z) : list A :=
  let len := Z.of_nat (length a) in
  let start := - timesteps in
  let start := if start <? 0 then Z.max 0 (len + start) else Z.min start len in
  skipn (Z.to_nat start) a.
Definition poincare_pairs {A} (a : list A) (timesteps : Z) : res (list (A * A)) :=
  rmap (fun t => x <- of_opt IndexError (nth_error (last_slice a timesteps) (Z.to_nat t)) ;;
                 y <- of_opt IndexError (nth_error (last_slice a timesteps) (Z.to_nat (t + 1))) ;; Ok (x, y))
    (zrange 0 (timesteps - 1)).

(** ** utils.py:381-385 (bifurcation_plot): the points; activities are ints here. np.unique sorts and removes duplicates. *)
Fixpoint insert_unique (x : Z) (l : list Z) : list Z :=
  match l with
  | [] => [x]
  | y :: l' => if x <? y then x :: l else if x =? y then l else y :: insert_unique x l'
  end.
Definition np_unique (l : list Z) : list Z := fold_right insert_unique [] l.
Definition bifurcation_points {X} (x : list X) (trajectories : list (list Z)) (timesteps : Z) : list (X * list Z) :=
  combine x (map (fun t => np_unique (last_slice t timesteps)) trajectories).

(** ** vis/vis_utils.py *)
(** vis_utils.py:6-17 *)
Definition lattice_pos (n_x n_y : Z) : dict Z (Z * Z) :=
  map (fun kp => (Z.of_nat (fst kp), snd kp)) (enumerate (flat_map (fun i => map (fun j => (i, j)) (zrange 0 n_y)) (zrange 0 n_x))).

(** vis_utils.py:20-29: the nodes in order of insertion, and the edges of the MultiDiGraph in order of insertion *)
Definition config_add_node {L} `{EqD L} (nodes : list L) (v : L) : list L := if existsb (eqb v) nodes then nodes else nodes ++ [v].
Definition configuration_to_nx {L} `{EqD L} (config : list (list L)) : list L * list (L * L) :=
  fold_left (fun g relation =>
    fold_left (fun g inode =>
      let '(nodes, edges) := g in
      let '(i, node) := inode in
      let nodes := config_add_node nodes node in
      match nth_error relation (i + 1) with
      | Some to_node => (config_add_node (config_add_node nodes node) to_node, edges ++ [(node, to_node)])
      | None => (nodes, edges)
      end) (enumerate relation) g) config ([], []).

(** vis_utils.py:46-56: for each edge, the selfReferenceSize if there is one; the concatenation into HTML is not modelled *)
Definition html_edges {L} `{EqD L} (edges : list (L * L)) : list (L * L * option Z) :=
  snd (fold_left (fun st e =>
    let '(self_references, out) := st in
    if eqb (fst e) (snd e) then
      let m := match dget self_references e with Some m => m | None => 0 end in
      (dset self_references e (m + 1), out ++ [(e, Some (15 + (m + 1) * 5))])
    else (self_references, out ++ [(e, None)])) edges ([] : dict (L * L) Z, [])).
