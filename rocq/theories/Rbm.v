(** Model of demos/restricted_boltzmann_machine/rbm_demo.py over the real numbers (float rounding, and the OverflowError of math.exp, are not modelled). *)
From Verif Require Import Py PyFacts Network Topology Evolve EvolveSpec.
From Coq Require Import Reals.
Open Scope string_scope.
Open Scope list_scope.
Open Scope Z_scope.

(** the labels "0v", "1v", ... and "0h", "1h", ... of rbm_demo.py:12, 14, 63-64; [node.endswith("v")] tells them apart and [int(node[:-1])] is the number *)
Inductive label := Vis (n : Z) | Hid (n : Z).
#[export] Instance EqD_label : EqD label.
Proof. intros [a|a] [b|b]; try (right; discriminate); (destruct (Z.eq_dec a b) as [->|]; [left; reflexivity|right; congruence]). Defined.

(** an activity: the pair of the state of the unit and its bias *)
Notation activity := (Z * R)%type.
#[export] Instance EqD_activity : EqD activity.
Proof. intros [a b] [a' b']. destruct (Z.eq_dec a a') as [->|]; [|right; congruence]. destruct (Req_EM_T b b') as [->|]; [left; reflexivity|right; congruence]. Defined.

Notation table := (dict label (dict label (dict string R))).

(** rbm_demo.py:13-17, one number of a line *)
Definition read_weight (i : nat) (ws : table) (jw : nat * R) : table :=
  let node1 := Vis (Z.of_nat (fst jw)) in
  let node2 := Hid (Z.of_nat i) in
  let ws := if dmem ws node1 then ws else dset ws node1 [] in
  match dget ws node1 with Some d => dset ws node1 (dset d node2 [("weight", snd jw)]) | None => ws end.
(** rbm_demo.py:7-18; the file is given as its lines of numbers *)
Definition read_weights (lines : list (list R)) : table :=
  fold_left (fun ws il => fold_left (read_weight (fst il)) (enumerate (snd il)) ws) (enumerate lines) [].

(** rbm_demo.py:21-27; [suffix] makes the label *)
Definition read_biases (suffix : Z -> label) (lines : list (list R)) : res (dict label R) :=
  rfold (fun d il => match snd il with [] => Err IndexError | x :: _ => Ok (dset d (suffix (Z.of_nat (fst il))) x) end) (enumerate lines) [].

(** rbm_demo.py:30-31 *)
Definition sigmoid (x : R) : R := (1 / (1 + exp (- x)))%R.

Section Sampling.
  (** [choice k]: the k-th result of np.random.choice([0, 1]); [binomial k p]: the result of the k-th call of np.random.binomial(1, p) *)
  Context (choice : nat -> Z) (binomial : nat -> R -> Z).
  (** the two sets of labels in the order in which Python iterates over them *)
  Context (visible_nodes hidden_nodes : list label).

  (** rbm_demo.py:34-40 *)
  Definition initialize_rbm (v_biases h_biases : dict label R) : res (dict label activity) :=
    d <- rfold (fun d kv => match dget v_biases (snd kv) with Some b => Ok (dset d (snd kv) (choice (fst kv), b)) | None => Err KeyError end) (enumerate visible_nodes) [] ;;
    rfold (fun d v => match dget h_biases v with Some b => Ok (dset d v (0, b)) | None => Err KeyError end) hidden_nodes d.

  Context {I : Type}.
  Notation ctx := (node_ctx label R activity I).
  Definition member (v : label) (s : list label) : bool := existsb (eqb v) s.

  (** rbm_demo.py:83-84, one neighbour *)
  Definition add_input (x : ctx) (V : R) (w : label) : res R :=
    match dget (x_conn x) w with
    | None => Err KeyError
    | Some [] => Err IndexError
    | Some (e :: _) =>
        match dget e "weight", dget (x_acts x) w with
        | Some wt, Some a => Ok (V + wt * IZR (fst a))%R
        | _, _ => Err KeyError
        end
    end.
  (** rbm_demo.py:71-87; the state of the generator is the number of calls *)
  Definition rbm_rule (u : nat) (x : ctx) : res (nat * outcome label R activity) :=
    let '(a, bias) := x_cur x in
    if (x_time x mod 2 =? 0) && member (x_label x) hidden_nodes then Ok (u, mkOut (a, bias) [] [])
    else if negb (x_time x mod 2 =? 0) && member (x_label x) visible_nodes then Ok (u, mkOut (a, bias) [] [])
    else
      V <- rfold (add_input x) (x_nbrs x) 0%R ;;
      Ok (S u, mkOut (binomial u (sigmoid (bias + V)), bias) [] []).

  (** rbm_demo.py:89-90 *)
  Definition rbm_args : @args label R activity nat I := mkArgs (Some rbm_rule) None None [] ACTIVITIES_FIRST true false true true false None.

  Context {BA BN : Type} (W : env label R activity BA BN).
  (** rbm_demo.py:59-90: the network, the initial conditions and the run *)
  Definition rbm_demo (fuel : nat) (weights v_bias h_bias : list (list R)) (timesteps : Z) : res (nat * list (state label R activity BA BN)) :=
    v_biases <- read_biases Vis v_bias ;;
    h_biases <- read_biases Hid h_bias ;;
    match bipartite visible_nodes hidden_nodes (Some (read_weights weights)) with
    | (network, Ok _) =>
        initial_conditions <- initialize_rbm v_biases h_biases ;;
        evolve W fuel 0%nat network (Some (CDict initial_conditions)) (Some timesteps) None rbm_args
    | (_, Err e) => Err e
    end.
End Sampling.

(** rbm_demo.py:43-51, one state *)
Definition visible_row (n_visible : Z) (acts : dict label activity) : res (list Z) :=
  rfold (fun row la => match fst la with
                       | Vis i => of_opt IndexError (py_set_nth row i (fun _ => fst (snd la)))
                       | Hid _ => Ok row
                       end) acts (repeat 0 (Z.to_nat n_visible)).
