(** * SubstDemos: model of demos/substitution_systems/substitution_system_demo1.py to 7.py

    The scripts build a SubstitutionSystem from a list of ints (so that dtype is int), evolve it and pad the trajectory
    (substitution_system.py:79-84). plot_grid, animate_network and show_network are not modelled. *)
From Coq Require Import Ascii.
From Verif Require Import Py Network Evolve SubstSpec Subst.
Open Scope string_scope.
Open Scope list_scope.
Open Scope Z_scope.

Section Script.
  Context {V BA BN I : Type} (W : env Z V Z BA BN).
  (** the keyword arguments of evolve, demo1.py:11-13 *)
  Definition subst_args (rules : dict string string) (k : Z) : @args Z V Z subst I :=
    mkArgs (Some (subst_rule digit int_conv rules k)) None None [] ACTIVITIES_FIRST true false true true false None.
  (** demo1.py:6-15, and the same lines in the others *)
  Definition subst_demo (fuel : nat) (rules : dict string string) (axiom : list Z) (timesteps : Z) : res (list (list Z)) :=
    ' (rules, k, net, u) <- subst_init axiom rules [] ;;
    ' (_, trajectory) <- evolve W fuel u net (Some (CList axiom)) (Some timesteps) None (subst_args rules k) ;;
    pad W trajectory.
End Script.

(** substitution_system_demo1.py:6-9 *)
Definition rules1 : dict string string := [("2", "21"); ("1", "12")].
Definition axiom1 : list Z := [2].
(** substitution_system_demo2.py:6-9 *)
Definition rules2 : dict string string := [("2", "1"); ("1", "12")].
Definition axiom2 : list Z := [1].
(** substitution_system_demo3.py:6-11; substitution_system_demo6.py:5-10 has the same rules and axiom, and 4 timesteps *)
Definition rules3 : dict string string := [("22", "22"); ("21", "1"); ("12", "21"); ("11", "")].
Definition axiom3 : list Z := [1; 2; 2; 1].
(** substitution_system_demo4.py:6-16 *)
Definition rules4 : dict string string :=
  [("33", "1"); ("32", "1"); ("31", "3"); ("23", "11"); ("22", "12"); ("21", "22"); ("13", "3"); ("12", "3"); ("11", "1")].
Definition axiom4 : list Z := [1; 2; 2; 1].
(** substitution_system_demo5.py:6-16 *)
Definition rules5 : dict string string :=
  [("33", "3"); ("32", "12"); ("31", "1"); ("23", ""); ("22", ""); ("21", "3"); ("13", "1"); ("12", "12"); ("11", "3")].
Definition axiom5 : list Z := [1; 2; 3; 2].
(** substitution_system_demo7.py:5-14 *)
Definition rules7 : dict string string :=
  [("111", "22"); ("112", "121"); ("121", "11"); ("122", ""); ("211", "212"); ("212", "1"); ("221", "22"); ("222", "211")].
Definition axiom7 : list Z := [2; 1; 1; 2; 1; 2].
