(** * What a Hopfield net recalls, told without networks or rules *)
From Verif Require Import Py HopfieldSpec.
Open Scope list_scope.
Open Scope Z_scope.

(** one element at a time is changed: in the step from k to k + 1 the element [who k] gets the value [F] finds for it *)
Fixpoint by_turns {L A} `{EqD L} (F : (L -> A) -> L -> A) (who : nat -> option L) (k : nat) (s : L -> A) : L -> A :=
  match k with
  | O => s
  | S k' => let s' := by_turns F who k' s in
            match who k' with Some c => fun v => if eqd v c then F s' c else s' v | None => s' end
  end.

(** the node whose turn it is in the step from k to k + 1: each step has a shuffle of its own, and the place read in it moves on *)
Definition turn (shuffle : nat -> nat -> list Z) (n k : nat) : Z := nth (k mod n) (shuffle k n) 0.

(** the nodes that had a turn show the pattern [p], the others what they showed at the start *)
Definition recalled (turns : nat -> Z) (p v0 : list Z) (t : nat) (i : Z) : Z :=
  if existsb (fun k => turns k =? i) (seq 0 t) then at0 p i else at0 v0 i.

(** how strongly node j draws node i towards [p] when j shows [p] *)
Definition pull (w : Z -> Z -> Z) (p : list Z) (i j : Z) : Z := at0 p i * at0 p j * w i j.

(** what remains of the pull on node i when exactly those wrong nodes of [v0] are still wrong that matter most *)
Definition slack (n : Z) (w : Z -> Z -> Z) (p v0 : list Z) (i : Z) : Z :=
  sum_upto n (pull w p i) - 2 * sum_upto n (fun j => if at0 p j =? at0 v0 j then 0 else Z.max 0 (pull w p i j)).

(** from [v0] on no node is ever drawn away from [p]; a tie is decided in favour of 1 *)
Definition secure (n : Z) (w : Z -> Z -> Z) (p v0 : list Z) : Prop :=
  forall i, 0 <= i < n -> 0 < slack n w p v0 i \/ slack n w p v0 i = 0 /\ at0 p i = 1.

(** the inner product *)
Definition dot (n : Z) (p q : list Z) : Z := sum_upto n (fun i => at0 p i * at0 q i).
