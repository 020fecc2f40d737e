(** * Model of the particle swarm demos (demos/optimizing_particle_swarms/pso_demo.py, pso_local_demo.py and pso_dynamic_demo.py)

    A position, a best position and a velocity are numpy vectors; their type [X], the elementwise operations [add], [sub]
    and [mul], and the weighted sum [dot3] ([np.array([a, b, c]).T.dot(scalars)]) are parameters, and so are the objective [f]
    and the comparison [lt] of its values. [rand k] is the [k]-th vector returned by [np.random.uniform(0, 1, size=...)]
    inside the activity rule; [place] and [push] are the positions and velocities drawn for the initial conditions. *)
From Verif Require Import Py Network Topology WattsStrogatz Evolve EvolveSpec.
Open Scope string_scope.
Open Scope list_scope.
Open Scope Z_scope.

Section Pso.
  Context {X F L V : Type} `{EqD X} `{EqD L}.
  Context (f : X -> F) (lt : F -> F -> bool) (add sub mul : X -> X -> X) (dot3 : X -> X -> X -> X) (rand : nat -> X).

  (** the activity of a node: (x_i, p_i, v_i) *)
  Notation particle := (X * X * X)%type.
  Notation acts := (dict L particle).
  Notation network := (network L V).
  Notation better a b := (lt (f a) (f b)).

  (** pso_demo.py:46-47, pso_local_demo.py:54-55 and 77-78, pso_dynamic_demo.py:62-63 and 90-91: [if g is None or f(p) < f(g): g = p] *)
  Definition consider (g : option X) (p : X) : option X :=
    match g with
    | None => Some p
    | Some b => if better p b then Some p else Some b
    end.

  (** pso_demo.py:40-48; pso_local_demo.py:39-45 and pso_dynamic_demo.py:47-53 build the same dictionary and have no [g] *)
  Fixpoint init_from (place push : nat -> X) (i : nat) (vs : list L) (d : acts) (g : option X) : acts * option X :=
    match vs with
    | [] => (d, g)
    | v :: rest => let x := place i in init_from place push (S i) rest (dset d v (x, x, push i)) (consider g x)
    end.
  Definition init_swarm (place push : nat -> X) (n : network) : acts * option X := init_from place push 0 (nodes n) [] None.

  (** pso_demo.py:55-62, pso_local_demo.py:57-64, pso_dynamic_demo.py:65-72: the new velocity; the random vectors are drawn before [g] is used *)
  Definition velocity (rp rg : X) (x p v g : X) : X := dot3 v (mul rp (sub p x)) (mul rg (sub g x)).

  (** *** pso_demo.py: one leader [g], a global variable *)
  (** what the script keeps outside the automaton: [g] (pso_demo.py:26), the number of vectors drawn so far, and the lines printed *)
  Record swarm := mkSwarm { sw_g : option X; sw_draws : nat; sw_log : list (Z * X) }.
  Notation gctx := (node_ctx L V particle acts).

  (** pso_demo.py:51-72. [g - x_i] raises TypeError when [g] is None *)
  Definition pso_rule (u : swarm) (c : gctx) : res (swarm * outcome L V particle) :=
    let '(x, p, v) := x_cur c in
    match sw_g u with
    | None => Err TypeError
    | Some g =>
        let v' := velocity (rand (sw_draws u)) (rand (S (sw_draws u))) x p v g in
        let x' := add x v' in
        let p' := if better x' p then x' else p in
        let g' := if better x' p then (if better p' g then p' else g) else g in
        Ok (mkSwarm (Some g') (S (S (sw_draws u))) (sw_log u), mkOut (x', p', v') [] [])
    end.

  (** pso_demo.py:74-78; [f(None)] raises TypeError *)
  Definition pso_input (timesteps : Z) (u : swarm) (t : Z) (a : acts) (_ : network) : res (swarm * option (inval acts)) :=
    match sw_g u with
    | None => Err TypeError
    | Some g => Ok (mkSwarm (Some g) (sw_draws u) (sw_log u ++ [(t, g)]), if t =? timesteps then None else Some (InVal a))
    end.

  (** pso_demo.py:80-81 *)
  Definition pso_args : @args L V particle swarm acts := mkArgs (Some pso_rule) None None [] ACTIVITIES_FIRST true false true true false None.

  (** *** pso_local_demo.py and pso_dynamic_demo.py: every node follows the best of its neighbours *)
  (** the number of vectors drawn and the lines printed *)
  Record flock := mkFlock { fl_draws : nat; fl_log : list (Z * F) }.

  (** pso_local_demo.py:48-71, pso_dynamic_demo.py:56-79; without neighbours [g] is None and [g - x_i] raises TypeError *)
  Definition local_rule (u : flock) (c : gctx) : res (flock * outcome L V particle) :=
    let '(x, p, v) := x_cur c in
    match fold_left consider (map (fun q => snd (fst q)) (x_nacts c)) None with
    | None => Err TypeError
    | Some g =>
        let v' := velocity (rand (fl_draws u)) (rand (S (fl_draws u))) x p v g in
        let x' := add x v' in
        let p' := if better x' p then x' else p in
        Ok (mkFlock (S (S (fl_draws u))) (fl_log u), mkOut (x', p', v') [] [])
    end.

  (** pso_local_demo.py:74-83, pso_dynamic_demo.py:87-96; the value is printed with three decimals, here it is kept whole.
      [f(None)] raises TypeError *)
  Definition local_input (timesteps : Z) (u : flock) (t : Z) (a : acts) (_ : network) : res (flock * option (inval acts)) :=
    match fold_left consider (map (fun e => snd (fst (snd e))) a) None with
    | None => Err TypeError
    | Some b => Ok (mkFlock (fl_draws u) (fl_log u ++ [(t, f b)]), if t =? timesteps then None else Some (InVal a))
    end.

  (** pso_local_demo.py:86-87 (no topology rule) and pso_dynamic_demo.py:99-101 *)
  Definition local_args (topo : option (network -> acts -> Z -> res network)) : @args L V particle flock acts :=
    mkArgs (Some local_rule) (option_map pure_topo topo) None [] ACTIVITIES_FIRST true false true true false None.
End Pso.

(** pso_dynamic_demo.py:82-84: a fresh small-world graph every timestep. [coin t] and [pick t] are what networkx draws at
    timestep [t]; [p_decay] (pso_dynamic_demo.py:11-12) only says how often [coin t] is true, and [coin] is arbitrary here. *)
Definition rewire_topology {A} (fuel : nat) (coin : Z -> Z -> Z -> bool) (pick : Z -> nat -> Z) (n k : Z)
    (_ : network Z Z) (_ : A) (t : Z) : res (network Z Z) := watts_strogatz_graph fuel (coin t) (pick t) n k.
