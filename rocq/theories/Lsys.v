(** * Lsys: model of demos/lindenmayer_systems/*.py

    The five scripts have the same form: a SubstitutionSystem whose axiom is a string (so that dtype is str), evolve with
    the system's rule and the default arguments, and plot_L_system or animate_L_system (utils.py:481-488) of the last
    state. What is drawn is the trajectory of the turtle; matplotlib is not modelled. *)
From Coq Require Import Ascii.
From Verif Require Import Py Network Evolve Rules SubstSpec Subst Turtle Plot PropRender.
From Coq Require Import Reals.
Open Scope string_scope.
Open Scope list_scope.
Open Scope Z_scope.

Record lsystem := mkLsys {
  l_rules : dict string string; l_constants : list string; l_axiom : string; l_timesteps : Z;
  l_orientation : R; l_bindings : dict ascii (binding turtle) }.

Definition letters (s : string) : list ascii := list_ascii_of_string s.
(** substitution_system.py:11: the characters of the axiom, as strings *)
Definition axiom_of (s : string) : list string := map (fun c => String c "") (letters s).

Section Script.
  Context {V BA BN I : Type} (W : env Z V string BA BN).

  (** the evolve call: the network, initial_conditions and activity_rule of the system, timesteps *)
  Definition lsys_args (rules : dict string string) (k : Z) : @args Z V string subst I :=
    mkArgs (Some (subst_rule (fun a => a) str_conv rules k)) None None [] ACTIVITIES_FIRST true false true true false None.
  Definition lsys_trajectory (fuel : nat) (d : lsystem) : res (list (state Z V string BA BN)) :=
    ' (rules, k, net, u) <- subst_init (axiom_of (l_axiom d)) (l_rules d) (l_constants d) ;;
    ' (_, trajectory) <- evolve W fuel u net (Some (CList (axiom_of (l_axiom d)))) (Some (l_timesteps d)) None (lsys_args rules k) ;;
    Ok trajectory.
  (** trajectory[-1]; utils.py:492: to_string([state])[0] *)
  Definition lsys_last (trajectory : list (state Z V string BA BN)) : res string :=
    match rev trajectory with
    | [] => Err IndexError
    | st :: _ => ss <- to_string W [st] ;; match ss with [] => Err IndexError | s :: _ => Ok s end
    end.
  (** Turtle(start_orientation=...) and _render_L_system: the turtle afterwards, and how the rendering ended *)
  Definition lsys_script (fuel : nat) (d : lsystem) : res (turtle * res unit) :=
    trajectory <- lsys_trajectory fuel d ;;
    s <- lsys_last trajectory ;;
    Ok (render (l_bindings d) (letters s) (new_turtle 0%R 0%R (l_orientation d))).
End Script.

(** [t.forward] is called without arguments (distance 1); [(t.rotate, a)] *)
Definition b_forward : binding turtle := One (method (Forward 1%R)).
Definition b_rotate (a : R) : binding turtle := One (method (Rotate a)).

(** koch_curve_demo.py:10-22 *)
Definition koch (T : Z) : lsystem :=
  mkLsys [("F", "F+F-F-F+F")] ["+"; "-"] "F" T 90%R
    [("F"%char, b_forward); ("+"%char, b_rotate (-90)%R); ("-"%char, b_rotate 90%R)].
(** sierpinski_triangle_demo.py:10-25 *)
Definition sierpinski (T : Z) : lsystem :=
  mkLsys [("F", "F-G+F+G-F"); ("G", "GG")] ["+"; "-"] "F-G-G" T 0%R
    [("F"%char, b_forward); ("G"%char, b_forward); ("+"%char, b_rotate (-120)%R); ("-"%char, b_rotate 120%R)].
(** moore_curve_demo.py:11-27 *)
Definition moore (T : Z) : lsystem :=
  mkLsys [("L", "-RF+LFL+FR-"); ("R", "+LF-RFR-FL+")] ["F"; "+"; "-"] "LFL+F+LFL" T 0%R
    [("F"%char, b_forward); ("R"%char, Many []); ("L"%char, Many []); ("+"%char, b_rotate 90%R); ("-"%char, b_rotate (-90)%R)].
(** fractal_tree_demo.py:10-25 *)
Definition tree (T : Z) : lsystem :=
  mkLsys [("1", "11"); ("0", "1[0]0")] ["["; "]"] "0" T 0%R
    [("1"%char, b_forward); ("0"%char, b_forward);
     ("["%char, Many [method Push; method (Rotate (-45)%R)]); ("]"%char, Many [method Pop; method (Rotate 45%R)])].
(** fractal_plant_demo.py:10-28 *)
Definition plant (T : Z) : lsystem :=
  mkLsys [("X", "F+[[X]-X]-F[-FX]+X"); ("F", "FF")] ["+"; "-"; "["; "]"] "X" T 25%R
    [("F"%char, b_forward); ("X"%char, Many []); ("+"%char, b_rotate (-25)%R); ("-"%char, b_rotate 25%R);
     ("["%char, One (method Push)); ("]"%char, One (method Pop))].

(** the timesteps of the scripts *)
Definition koch_timesteps : Z := 4.
Definition sierpinski_timesteps : Z := 6.
Definition moore_timesteps : Z := 5.
Definition tree_timesteps : Z := 7.
Definition plant_timesteps : Z := 6.
