(** * Model of the rules of demos/fredkin_self_replicating_ca *)
From Verif Require Import Py Network Evolve.
Open Scope list_scope.
Open Scope Z_scope.

Section Model.
  Context {L V I : Type}.
  (** demos/fredkin_self_replicating_ca/fredkin_self_replicating_ca_moore_demo.py:22-23 and
      fredkin_self_replicating_ca_vonneumann_demo.py:22-23 ([p] = 2), fredkin_self_replicating_ca_multicolor_demo.py:22-23
      ([p] = 11): the sum of the neighbourhood without the cell itself, modulo [p].
      Simplification: activities are unbounded integers, where numpy would use int64. *)
  Definition fredkin_rule (p : Z) (x : node_ctx L V Z I) : res Z := Ok ((zsum (x_nacts x) - x_cur x) mod p).
End Model.
