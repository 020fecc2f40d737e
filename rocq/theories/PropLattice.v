(** * C68: lattice *)
From Verif Require Import Py PyFacts ListFacts Network NetworkSpec NetworkProofs LatticeSpec Lattice LatticeProofs.
Open Scope string_scope.
Open Scope list_scope.
Open Scope Z_scope.

(** the points of the lattice are numbered from [first]; adjacent points are joined by one edge in each direction *)
Theorem C68_lattice : forall (V : Type) dim periodic self_loops first, dim <> [] -> Forall (fun d => 0 < d) dim -> let N := volume dim in
  exists net : network Z V, lattice dim periodic self_loops first = Ok net /\ net_rot net = None /\ NoDup (nodes net) /\
    (forall v, In v (nodes net) <-> exists u w, first <= u < first + N /\ first <= w < first + N /\ (v = u \/ v = w) /\ (u <> w \/ self_loops = true) /\ adjacent periodic dim (u - first) (w - first)) /\
    (forall e, In e (edges net) -> first <= fst (fst e) < first + N /\ first <= snd (fst e) < first + N /\ snd e = []) /\
    forall u v, first <= u < first + N -> first <= v < first + N ->
      (u <> v -> adjacent periodic dim (u - first) (v - first) -> edge net u v = Ok [[]] /\ edge net v u = Ok [[]]) /\
      (u <> v -> ~ adjacent periodic dim (u - first) (v - first) -> edge net u v = Err KeyError).
Proof.
  intros V dim periodic self_loops first Hne Hp N. destruct (lattice_spec (V:=V) dim periodic self_loops first Hne Hp) as (net & E & Hrot & (g & HR) & Hn & He & Hb). exists net. split; [assumption|]. split; [assumption|].
  split; [exact (R_NoDup _ _ HR)|]. split; [assumption|]. split; [assumption|]. intros u v Hu Hv. destruct (Hb u v Hu Hv) as (H1 & _ & H3). split; [|intros _ Hx; apply H3; auto].
  intros Huv Hx. split; [auto|]. apply (Hb v u Hv Hu); [congruence|]. clear - Hx. destruct Hx as (i & d & a & b & E1 & E2 & E3 & Hj & Hr). exists i, d, b, a. split; [assumption|]. split; [assumption|]. split; [assumption|]. split; [unfold joined in *; tauto|]. intros j Hne. symmetry. auto.
Qed.

Lemma self_adjacent periodic dim u : Forall (fun d => 0 < d) dim -> adjacent periodic dim u u <-> periodic = true /\ In 1 dim.
Proof.
  intros Hp. split.
  - intros (i & d & a & b & Ei & Ea & Eb & Hj & _). assert (a = b) by congruence. subst b. unfold joined in Hj. assert (Hd : periodic = true /\ d = 1) by intuition lia. destruct Hd as [Hd ->]. split; [assumption|]. eapply nth_error_In. exact Ei.
  - intros [-> H1]. apply In_nth_error in H1. destruct H1 as [i Ei]. assert (Hc : nth_error (coords dim u) i = Some 0).
    { clear Hp. revert i u Ei. induction dim as [|d dim IH]; intros [|i] u Ei; try discriminate; cbn in *; [injection Ei as ->; rewrite Z.mod_1_r; reflexivity|]. apply IH. assumption. }
    exists i, 1, 0, 0. split; [assumption|]. split; [assumption|]. split; [assumption|]. split; [right; right; auto|]. reflexivity.
Qed.

(** contrary to its documentation, [self_loops] only connects nodes to themselves (twice) on a periodic lattice with a dimension of 1 *)
Theorem C68_self_loops : forall (V : Type) dim periodic self_loops first, dim <> [] -> Forall (fun d => 0 < d) dim ->
  exists net : network Z V, lattice dim periodic self_loops first = Ok net /\
    ((self_loops = true /\ periodic = true /\ In 1 dim -> forall v, first <= v < first + volume dim -> edge net v v = Ok [[]; []]) /\
     (self_loops = false \/ periodic = false \/ ~ In 1 dim -> forall v, first <= v < first + volume dim -> edge net v v = Err KeyError)).
Proof.
  intros V dim periodic self_loops first Hne Hp. destruct (lattice_spec (V:=V) dim periodic self_loops first Hne Hp) as (net & E & _ & _ & _ & _ & Hb). exists net. split; [assumption|]. split.
  - intros (Hs & Hper & H1) v Hv. destruct (Hb v v Hv Hv) as (_ & H2 & _). apply H2; [reflexivity| |assumption]. apply self_adjacent; auto.
  - intros Hx v Hv. destruct (Hb v v Hv Hv) as (_ & _ & H3). apply H3. rewrite self_adjacent by assumption. destruct Hx as [Hx|[Hx|Hx]]; [right; auto|left; intros [Hy _]; congruence|left; tauto].
Qed.
Theorem C68_self_loops_refuted : exists net : network Z Z, lattice [2; 2] true true 0 = Ok net /\ edge net 0 0 = Err KeyError.
Proof. eexists. split; [vm_compute; reflexivity|reflexivity]. Qed.

(** without a dimension there is nothing; dimension 0 is rejected only when periodic, negative dimensions always *)
Theorem C68_no_dimensions : forall (V : Type) periodic self_loops first, lattice (V:=V) [] periodic self_loops first = Ok empty_network.
Proof. reflexivity. Qed.
Theorem C68_bad_dimension : forall (V : Type) dim periodic self_loops first,
  ((exists a d b, dim = a ++ d :: b /\ Forall (fun x => 0 < x) a /\ d < 0) -> lattice (V:=V) dim periodic self_loops first = Err (Raise "NetworkXError")) /\
  ((exists a b, dim = a ++ 0 :: b /\ Forall (fun x => 0 < x) a) -> periodic = true -> lattice (V:=V) dim periodic self_loops first = Err IndexError).
Proof.
  intros V dim periodic self_loops first.
  assert (Hgen : forall a d b e, Forall (fun x => 0 < x) a -> (if periodic then cycle_graph else path_graph) d = Err e -> lattice (V:=V) (a ++ d :: b) periodic self_loops first = Err e).
  { intros a d b e Ha Ed. unfold lattice, grid_graph. destruct a as [|a0 a]; cbn [app]; [rewrite Ed; reflexivity|]. inversion Ha as [|? ? Ha0 Ha']; subst.
    destruct (path_cycle periodic a0 Ha0) as (g0 & -> & _). cbn [rbind]. rewrite rfold_app. clear Ha Ha0.
    assert (Hf : forall g, exists g', rfold (fun G d => Gnew <- (if periodic then cycle_graph else path_graph) d ;; Ok (cartesian_product Gnew G)) a g = Ok g').
    { clear - Ha'. induction Ha' as [|x a Hx _ IH]; intros g; [eexists; reflexivity|]. cbn [rfold]. destruct (path_cycle periodic x Hx) as (gx & -> & _). cbn [rbind]. apply IH. }
    destruct (Hf g0) as [g' ->]. cbn [rbind rfold]. rewrite Ed. reflexivity. }
  split.
  - intros (a & d & b & -> & Ha & Hd). apply Hgen; [assumption|]. destruct periodic; [unfold cycle_graph|unfold path_graph]; destruct (Z.ltb_spec d 0); try reflexivity; lia.
  - intros (a & b & -> & Ha) ->. apply Hgen; [assumption|]. reflexivity.
Qed.

(** ** Examples *)
Example C68_nonvacuous : exists net : network Z Z, lattice [3; 2] true false 10 = Ok net /\ [3; 2] <> [] /\ Forall (fun d => 0 < d) [3; 2] /\ volume [3; 2] = 6 /\ coords [3; 2] 4 = [1; 1] /\
  nodes net = [13; 10; 11; 12; 14; 15] /\ adjacent true [3; 2] 0 2 /\ edge net 10 12 = Ok [[]] /\ edge net 12 10 = Ok [[]] /\ edge net 10 14 = Err KeyError.
Proof.
  eexists. split; [vm_compute; reflexivity|]. split; [discriminate|]. split; [repeat constructor; lia|]. split; [reflexivity|]. split; [reflexivity|]. split; [vm_compute; reflexivity|].
  split; [exists 0%nat, 3, 0, 2; split; [reflexivity|]; split; [reflexivity|]; split; [reflexivity|]; split; [right; right; auto|intros [|[|j]] Hj; [congruence|reflexivity|reflexivity]]|].
  split; [vm_compute; reflexivity|]. split; vm_compute; reflexivity.
Qed.
Example C68_self_loops_nonvacuous : exists net : network Z Z, lattice [1; 2; 2] true true 0 = Ok net /\ edge net 3 3 = Ok [[]; []].
Proof. eexists. split; vm_compute; reflexivity. Qed.
Example C68_bad_nonvacuous : lattice (V:=Z) [2; 0; 3] true false 0 = Err IndexError /\ lattice (V:=Z) [2; 0; 3] false false 0 = Ok empty_network /\ lattice (V:=Z) [2; -1] false false 0 = Err (Raise "NetworkXError").
Proof. split; [reflexivity|]. split; reflexivity. Qed.

Print Assumptions C68_lattice.
Print Assumptions C68_self_loops.
Print Assumptions C68_self_loops_refuted.
Print Assumptions C68_no_dimensions.
Print Assumptions C68_bad_dimension.
