(** * Model of the rules of demos/continuous_time_models

    Floating-point numbers are modelled as exact rationals: no rounding, no overflow (and a zero divisor always
    raises, as for Python floats; numpy floats would give inf). The labels are taken modulo [nx], the size of the ring. Everything else (the ring, the
    contexts, the timesteps) is the code modelled in Topology.v and Evolve.v. *)
From Coq Require Import QArith.
From Verif Require Import Py Network Topology Evolve Fungal.
Open Scope string_scope.
Open Scope list_scope.
Open Scope Q_scope.

(** Python's [/] on floats *)
Definition qdiv (a b : Q) : res Q := if Qeq_bool b 0 then Err ZeroDivisionError else Ok (a / b).

Section Rules.
  Context {V I : Type}.
  Notation ctx := (node_ctx Z V Q I).

  (** diffusion_demo.py:22-28 *)
  Definition diffusion_rule (nx : Z) (nu dt dx : Q) (x : ctx) : res Q :=
    let un_i := x_cur x in
    let left_label := ((x_label x - 1) mod nx)%Z in
    un_i_m1 <- activity_of x left_label ;;
    let right_label := ((x_label x + 1) mod nx)%Z in
    un_i_p1 <- activity_of x right_label ;;
    F <- qdiv (nu * dt) (dx * dx) ;;
    Ok (un_i + F * (un_i_p1 - 2 * un_i + un_i_m1)).

  (** simple_diffusion_demo.py:27-31; [F] is computed once, outside the rule (line 25) *)
  Definition simple_diffusion_rule (F : Q) (x : ctx) : res Q :=
    let current := x_cur x in
    left <- of_opt IndexError (py_nth (x_nacts x) 0) ;;
    right <- of_opt IndexError (py_nth (x_nacts x) 2) ;;
    Ok (current + F * (right - 2 * current + left)).

  (** linear_convection_demo.py:21-26 *)
  Definition convection_rule (nx : Z) (k dt dx : Q) (x : ctx) : res Q :=
    let un_i := x_cur x in
    let left_label := ((x_label x - 1) mod nx)%Z in
    un_i_m1 <- activity_of x left_label ;;
    c <- qdiv (k * dt) dx ;;
    Ok (un_i - c * (un_i - un_i_m1)).

  (** nonlinear_convection_demo.py:21-26 *)
  Definition nonlinear_convection_rule (nx : Z) (dt dx : Q) (x : ctx) : res Q :=
    let un_i := x_cur x in
    let left_label := ((x_label x - 1) mod nx)%Z in
    un_i_m1 <- activity_of x left_label ;;
    c <- qdiv (un_i * dt) dx ;;
    Ok (un_i - c * (un_i - un_i_m1)).

  (** burgers_equation_demo.py:41-47 *)
  Definition burgers_rule (nx : Z) (nu dt dx : Q) (x : ctx) : res Q :=
    let un_i := x_cur x in
    let left_label := ((x_label x - 1) mod nx)%Z in
    un_i_m1 <- activity_of x left_label ;;
    let right_label := ((x_label x + 1) mod nx)%Z in
    un_i_p1 <- activity_of x right_label ;;
    c <- qdiv (un_i * dt) dx ;;
    F <- qdiv (nu * dt) (dx * dx) ;;
    Ok (un_i - c * (un_i - un_i_m1) + F * (un_i_p1 - 2 * un_i + un_i_m1)).

  (** wave_equation_demo.py:24-32 *)
  Definition wave_rule (nx : Z) (dt dx : Q) (x : ctx) : res Q :=
    let un_i := x_cur x in
    let left_label := ((x_label x - 1) mod nx)%Z in
    un_i_m1 <- activity_of x left_label ;;
    let right_label := ((x_label x + 1) mod nx)%Z in
    un_i_p1 <- activity_of x right_label ;;
    un_m1_i <- past_activity_of x (x_label x) (-1) ;;
    a <- qdiv (dt * dt * (un_i_p1 - 2 * un_i + un_i_m1)) (dx * dx) ;;
    Ok (a + (2 * un_i - un_m1_i)).
End Rules.

(** single_spring_netomaton_demo.py:30-34; the activity is the pair of position and velocity *)
Definition spring_rule {V I} (dt : Q) (x : node_ctx Z V (Q * Q) I) : res (Q * Q) :=
  let (x_n, v_n) := x_cur x in
  let x_new := x_n + dt * v_n in
  let v_new := v_n + dt * ((-6) * x_new) in
  Ok (x_new, v_new).
