(** * Fungal growth on a torus: what may grow and how resource flows *)
From Coq Require Import QArith Permutation.
From Verif Require Import Py SandpileSpec.
Open Scope Z_scope.

Definition Qsum (l : list Q) : Q := fold_right Qplus 0%Q l.

(** [out] lists the unordered pairs [links] in any order, each either way round *)
Definition any_order (links out : list (Z * Z)) : Prop := exists l, Permutation links l /\ Forall2 (fun a b => b = a \/ b = (snd a, fst a)) l out.

(** the resource an agent has *)
Definition amount (S : dict Z Q) (v : Z) : Q := match dget S v with Some a => a | None => 0%Q end.
Definition alive (S : dict Z Q) (v : Z) : Prop := (0 < amount S v)%Q.

(** the links [E] may grow into [E'] in one timestep: links stay, new ones join agents beside each other that were not linked, one way
    only and from an agent that is alive; two agents beside each other that are both alive get linked *)
Definition growth (rows cols : Z) (S : dict Z Q) (E E' : Z -> Z -> bool) : Prop :=
  (forall u v, E u v = true -> E' u v = true) /\
  (forall u v, E' u v = true -> E u v = true \/ beside rows cols u v = true /\ alive S u /\ E u v = false /\ E v u = false) /\
  (forall u v, E' u v = true -> E' v u = false) /\
  (forall u v, 0 <= u < rows * cols -> 0 <= v < rows * cols -> beside rows cols u v = true -> alive S u -> alive S v -> E' u v = true \/ E' v u = true).

(** agents that have a link to [v], agents that [v] has a link to *)
Definition sources (N : Z) (E : Z -> Z -> bool) (v : Z) : list Z := filter (fun u => E u v) (zrange 0 N).
Definition targets (N : Z) (E : Z -> Z -> bool) (v : Z) : list Z := filter (E v) (zrange 0 N).

(** an agent sends all it has in equal parts along its links; one that receives gives up what it had; living agents absorb *)
Definition flow (N : Z) (E : Z -> Z -> bool) (R_E : Q) (layer : Z -> Q) (S S' : dict Z Q) : Prop := forall v, 0 <= v < N ->
  (amount S' v ==
    (match sources N E v with
     | [] => amount S v
     | l => Qsum (map (fun u => amount S u / inject_Z (Z.of_nat (length (targets N E u)))) l)
     end) + (if Qlt_le_dec 0 (amount S v) then R_E * layer v else 0))%Q.

(** the resource layer: as given, or 1 wherever the initial conditions are not 0 *)
Definition layer_at (resource_layer initial_conditions : list Q) (v : Z) : Q :=
  match resource_layer with
  | [] => if Qeq_bool (nth (Z.to_nat v) initial_conditions 0%Q) 0 then 0%Q else 1%Q
  | _ => nth (Z.to_nat v) resource_layer 0%Q
  end.
