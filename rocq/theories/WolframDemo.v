(** * WolframDemo: model of demos/wolfram_physics/wolfram_physics_demo.py. *)
From Verif Require Import Py Network Evolve WolframSpec Wolfram.
Open Scope Z_scope.

(** wolfram_physics_demo.py:8-10: rules; the symbols are ints *)
Definition wm_in : list (list Z) := [[1; 1; 2]; [3; 4; 1]].
Definition wm_out : list (list Z) := [[1; 1; 4]; [5; 4; 3]; [2; 5; 1]].
(** wolfram_physics_demo.py:11: config *)
Definition wm_config : config := [[1; 1; 1]; [1; 1; 1]].

(** wolfram_physics_demo.py:15: the arguments of evolve, all others by default *)
Definition wm_args {A I} (fuel : nat) : args (L := Z) (V := aval) (A := A) (U := model) (I := I) :=
  mkArgs None (Some (wolfram_rule fuel wm_in wm_out)) None [] ACTIVITIES_FIRST true false true true false None.

(** wolfram_physics_demo.py:13-15: the model, then evolve(network=model.network, topology_rule=model.topology_rule, timesteps=T) *)
Definition wm_run {A BA BN I} `{EqD A} (W : env Z aval A BA BN) (fuel f : nat) (T : Z) :=
  m <- model_init wm_config ;; evolve W f m (m_net m) None (Some T) None (wm_args (I := I) fuel).
