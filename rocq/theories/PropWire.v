(** Property theorems for electrons on Wireworld wires (C96). *)
From Verif Require Import Py PyFacts ListFacts Network Topology TopologySpec TopologyProofs TopologyProofs2 Evolve EvolveSpec EvolveProofs EvolveStatic CaSpec CaRun CaNets Rules PropEvolve PropCa.
Open Scope string_scope.
Open Scope list_scope.
Open Scope Z_scope.

(** wireworld_rule as an activity rule (demos/wireworld); on states other than 0..3 it returns None, which is not an activity here *)
Definition wire_rule {I} (x : node_ctx Z Z Z I) : res Z := of_opt Unmodelled (wireworld_rule x).

(** ** what a wire and a train of electrons are *)
(** [w] walks around a closed wire of [m] cells: consecutive cells are neighbours, and nothing else that is not empty touches it *)
Definition closed_wire (cells : Z -> Prop) (nb : Z -> list Z) (s : Z -> Z) (m : Z) (w : Z -> Z) : Prop :=
  3 <= m /\ (forall i, w (i + m) = w i) /\ (forall i, cells (w i)) /\
  forall i, NoDup (nb (w i)) /\ In (w (i - 1)) (nb (w i)) /\
    forall x, In x (nb (w i)) -> s x <> 0 -> x = w (i - 1) \/ x = w i \/ x = w (i + 1).
(** conductors (3) with electrons on them: every head (1) has its tail (2) right behind it, every tail its head right before it and
    a conductor right behind it *)
Definition train (m : Z) (sig : Z -> Z) : Prop :=
  (forall i, sig (i + m) = sig i) /\
  forall i, (sig i = 1 \/ sig i = 2 \/ sig i = 3) /\ (sig i = 1 <-> sig (i - 1) = 2) /\ (sig i = 2 -> sig (i - 1) = 3).

Definition wire_next (a : Z) (l : list Z) : Z :=
  if a =? 0 then 0 else if a =? 1 then 2 else if a =? 2 then 3 else if Nat.eqb (count l 1) 1 || Nat.eqb (count l 1) 2 then 1 else 3.

Lemma wire_next_3 l : wire_next 3 l = if Nat.eqb (count l 1) 1 || Nat.eqb (count l 1) 2 then 1 else 3.
Proof. reflexivity. Qed.
Lemma wire_computes {I} nb (D : Z -> Prop) : computes (V:=Z) (I:=I) nb D (fun a => 0 <= a <= 3) wire_rule (fun _ => wire_next).
Proof.
  intros x _ Hc _ _. unfold wire_rule, wireworld_rule, wire_next.
  destruct (Z.eqb_spec (x_cur x) 0), (Z.eqb_spec (x_cur x) 1), (Z.eqb_spec (x_cur x) 2), (Z.eqb_spec (x_cur x) 3); try lia; cbn [of_opt]; (split; [reflexivity|]); try lia.
  destruct (_ || _); lia.
Qed.

Lemma count_filter {X} (s : X -> Z) l a : count (map s l) a = length (filter (fun x => s x =? a) l).
Proof.
  unfold count. induction l as [|x l IH]; [reflexivity|]. cbn [map filter].
  destruct (Z.eqb_spec (s x) a) as [E|E]; [rewrite E, eqb_refl; cbn [length]; rewrite IH; reflexivity|].
  rewrite (proj2 (eqb_false a (s x))) by congruence. exact IH.
Qed.

Lemma heads_near (s : Z -> Z) l u w : NoDup l -> In u l -> s u = 1 -> (forall x, In x l -> s x = 1 -> x = u \/ x = w) -> count (map s l) 1 = 1%nat \/ count (map s l) 1 = 2%nat.
Proof.
  intros Hnd Hu Eu Hall. rewrite count_filter. set (h := filter (fun x => s x =? 1) l).
  assert (H1 : In u h) by (apply filter_In; rewrite Eu; auto).
  assert (H2 : (length h <= 2)%nat).
  { change 2%nat with (length [u; w]). apply NoDup_incl_length; [apply NoDup_filter; assumption|]. intros x Hx. apply filter_In in Hx. destruct Hx as [Hx E]. apply Z.eqb_eq in E.
    destruct (Hall x Hx E) as [-> | ->]; cbn; auto. }
  destruct h as [|a [|b [|c h]]]; cbn in *; [contradiction|auto|auto|lia].
Qed.
Lemma no_heads (s : Z -> Z) l : (forall x, In x l -> s x <> 1) -> count (map s l) 1 = 0%nat.
Proof.
  intros Hall. rewrite count_filter. replace (filter (fun x => s x =? 1) l) with (@nil Z); [reflexivity|]. symmetry. induction l as [|x l IH]; [reflexivity|]. cbn [filter].
  destruct (Z.eqb_spec (s x) 1) as [E|E]; [exfalso; apply (Hall x); [left; reflexivity|assumption]|]. apply IH. intros; apply Hall; right; assumption.
Qed.

Section Wire.
  Context (nb : Z -> list Z) (s : Z -> Z).
  Notation st k := (ca_state nb (fun _ => wire_next) k s).
  Lemma empty_stays k v : st k v = 0 <-> s v = 0.
  Proof.
    induction k as [|k IH]; [apply iff_refl|]. rewrite ca_state_S. unfold ca_next. rewrite <- IH. generalize (st k v), (map (st k) (nb v)). clear. intros a l. unfold wire_next.
    destruct (Z.eqb_spec a 0) as [E|E]; [tauto|]. split; [|contradiction]. destruct (a =? 1); [lia|]. destruct (a =? 2); [lia|]. destruct (_ || _); lia.
  Qed.
  Lemma train_moves (cells : Z -> Prop) m w sig : closed_wire cells nb s m w -> train m sig -> (forall i, s (w i) = sig i) -> forall k i, st k (w i) = sig (i - Z.of_nat k).
  Proof.
    intros (Hm & Hw & _ & Hnb) (_ & Ht) H0. induction k as [|k IH]; intros i; [transitivity (s (w i)); [reflexivity|]; rewrite H0; f_equal; lia|].
    rewrite ca_state_S. unfold ca_next. destruct (Hnb i) as (Hnd & Hin & Hall).
    assert (Hnear : forall x, In x (nb (w i)) -> st k x <> 0 -> x = w (i - 1) \/ x = w i \/ x = w (i + 1)) by (intros x Hx Hne; apply Hall; [assumption|]; intros E; apply Hne, empty_stays; assumption).
    rewrite (IH i). set (j := i - Z.of_nat k) in *. replace (i - Z.of_nat (S k)) with (j - 1) by lia.
    assert (Eb : st k (w (i - 1)) = sig (j - 1)) by (rewrite IH; f_equal; lia). assert (Ea : st k (w (i + 1)) = sig (j + 1)) by (rewrite IH; f_equal; lia).
    assert (Ei : st k (w i) = sig j) by apply IH.
    destruct (Ht j) as (Hj & Hj1 & Hj2). destruct (Ht (j - 1)) as (Hp & Hp1 & Hp2). destruct (Ht (j + 1)) as (Hq & Hq1 & Hq2). replace (j + 1 - 1) with j in * by lia.
    destruct Hj as [E|[E|E]]; rewrite E.
    - symmetry. apply Hj1. assumption.
    - symmetry. auto.
    - destruct Hp as [E1|[E1|E1]]; [|exfalso; apply Hj1 in E1; lia|].
      + rewrite E1. destruct (heads_near (st k) (nb (w i)) (w (i - 1)) (w (i + 1)) Hnd Hin ltac:(congruence)) as [E3|E3]; [|rewrite wire_next_3, E3; reflexivity..].
        intros x Hx E2. destruct (Hnear x Hx ltac:(lia)) as [->|[-> | ->]]; [auto|congruence|auto].
      + rewrite wire_next_3, (no_heads (st k) (nb (w i))); [cbn; congruence|]. intros x Hx E2. destruct (Hnear x Hx ltac:(lia)) as [->|[-> | ->]]; [lia|lia|].
        rewrite Ea in E2. apply Hq1 in E2. lia.
  Qed.
End Wire.

(** C96: on every network, a train of electrons on a closed wire moves on by one cell per timestep, for ever, whatever happens
    elsewhere on the board; so after m timesteps the wire looks as at the start. Empty cells stay empty. *)
Theorem C96_electrons : forall (U I BA BN : Type) (W : env Z Z Z BA BN) fuel (u0 : U) (n : network Z Z) nb c T (g : @args Z Z Z U I) (s : Z -> Z) m w sig,
  static g (stateless wire_rule) -> NoDup (nodes n) -> closed n -> (forall v, In v (nodes n) -> nbrs_of n v (nb v)) ->
  1 <= T -> (Z.to_nat T <= fuel)%nat -> length (to_dict W c) = net_len n ->
  (forall v, In v (nodes n) -> dget (to_dict W c) v = Some (s v) /\ 0 <= s v <= 3) ->
  closed_wire (fun v => In v (nodes n)) nb s m w -> train m sig -> (forall i, s (w i) = sig i) ->
  exists hs, runs W fuel u0 n c T g hs /\ nth_error hs 0 = Some (to_dict W c) /\
    forall k S, nth_error hs k = Some S ->
      (forall i, dget S (w i) = Some (sig (i - Z.of_nat k))) /\
      (Z.of_nat k mod m = 0 -> forall i, dget S (w i) = dget (to_dict W c) (w i)) /\
      (forall v, In v (nodes n) -> dget S v = Some 0 <-> s v = 0).
Proof.
  intros U I BA BN W fuel u0 n nb c T g s m w sig Hst Hnd Hcl Hnb HT Hf Hlen Hs Hwire Htrain Hsig.
  destruct (C80_global_map W fuel u0 n nb c T g wire_rule (fun _ => wire_next) (fun a => 0 <= a <= 3) s Hst Hnd Hcl Hnb HT Hf Hlen Hs) as (hs & Hrun & Hz & Hk).
  { intros x Hd Hc Hn Hl. apply (wire_computes nb (fun v => In v (nodes n))); assumption. }
  exists hs. split; [assumption|]. split; [assumption|]. intros k S Ek. pose proof Hwire as (Hm & Hper & Hcells & _). pose proof Htrain as (Hsper & _).
  assert (Hw : forall i, dget S (w i) = Some (sig (i - Z.of_nat k))).
  { intros i. rewrite (Hk k S (w i) Ek (Hcells i)). f_equal. eapply train_moves; eassumption. }
  split; [assumption|]. split.
  - intros Emod i. rewrite Hw, (proj1 (Hs (w i) (Hcells i))), Hsig. f_equal. apply Z.mod_divide in Emod; [|lia]. destruct Emod as [q Eq]. rewrite Eq.
    assert (Hnat : forall n i, sig (i - Z.of_nat n * m) = sig i).
    { clear - Hsper. induction n as [|n IH]; intros i; [f_equal; lia|]. rewrite <- (Hsper (i - Z.of_nat (Datatypes.S n) * m)). rewrite <- (IH i). f_equal. lia. }
    rewrite <- (Z2Nat.id q) by nia. apply Hnat.
  - intros v Hv. rewrite (Hk k S v Ek Hv). rewrite <- (empty_stays nb s k v). split; [injection 1; auto|intros ->; reflexivity].
Qed.
Print Assumptions C96_electrons.

(** the simplest wire: a whole row [r] of a rows x cols torus (the long wires of the demos are such rows, up to their gadgets) *)
Theorem C96_row : forall rows cols r, 3 <= rows -> 3 <= cols -> 0 <= r < rows ->
  exists net nb, cellular_automaton2d rows cols 1 "Moore" true = Ok net /\ lattice net (rows * cols) nb /\
    forall s, (forall a b, 0 <= a < rows -> 0 <= b < cols -> a <> r -> s (a * cols + b) = 0) ->
      closed_wire (fun v => In v (nodes net)) nb s cols (fun i => r * cols + i mod cols).
Proof.
  intros rows cols r Hr Hc Hrow. destruct (torus_lattice rows cols 1 "Moore" ltac:(lia) ltac:(lia) ltac:(nia) ltac:(lia) ltac:(auto)) as (net & f & E & Hlat & Hnd & Hin).
  exists net, f. split; [assumption|]. split; [assumption|]. intros s Hs. pose proof Hlat as (_ & Hnodes & _ & _ & _ & Hub).
  split; [assumption|]. split; [intros i; f_equal; rewrite <- (Z_mod_plus_full i 1 cols); f_equal; lia|].
  assert (Hrange : forall i, 0 <= i mod cols < cols) by (intros i; apply Z.mod_pos_bound; lia).
  assert (Hcell : forall i, 0 <= r * cols + i mod cols < rows * cols) by (intros i; apply (cell_bound rows cols); auto).
  split; [intros i; apply Hnodes, Hcell|]. intros i. split; [apply Hnd, Hcell|]. split.
  - apply Hin; auto. exists 0, (-1). split; [unfold offset_of, moore_offset; cbn; lia|]. rewrite Z.add_0_r, Z.mod_small by assumption. rewrite Zplus_mod_idemp_l. auto.
  - intros x Hx Hne. assert (Hxr := Hub _ _ (Hcell i) Hx). destruct (cell_surj rows cols x ltac:(lia) Hxr) as (Ex & Ha & Hb). unfold cell in Ex.
    set (a := x / cols) in *. set (b := x mod cols) in *. clearbody a b. subst x.
    destruct (Z.eq_dec a r) as [->|Har]; [|exfalso; apply Hne, Hs; assumption].
    apply Hin in Hx; auto. destruct Hx as (dx & dy & Hoff & _ & ->). unfold offset_of, moore_offset in Hoff. cbn in Hoff. rewrite Zplus_mod_idemp_l.
    assert (Hdy : dy = -1 \/ dy = 0 \/ dy = 1) by lia. destruct Hdy as [->|[-> | ->]]; [left; reflexivity|right; left; f_equal; f_equal; lia|right; right; reflexivity].
Qed.
Print Assumptions C96_row.

(** the demos' starting row "2 1 3 3 ...": one electron *)
Definition one_electron (m i : Z) : Z := if i mod m =? 1 then 1 else if i mod m =? 0 then 2 else 3.
Theorem C96_one_electron : forall m, 3 <= m -> train m (one_electron m).
Proof.
  intros m Hm. assert (Hp : forall i, (i - 1) mod m = if i mod m =? 0 then m - 1 else i mod m - 1).
  { intros i. pose proof (Z.mod_pos_bound i m ltac:(lia)). destruct (Z.eqb_spec (i mod m) 0) as [E|E].
    - symmetry. apply (Z.mod_unique _ _ (i / m - 1)); [lia|]. pose proof (Z.div_mod i m ltac:(lia)). nia.
    - symmetry. apply (Z.mod_unique _ _ (i / m)); [lia|]. pose proof (Z.div_mod i m ltac:(lia)). nia. }
  split; [intros i; unfold one_electron; replace ((i + m) mod m) with (i mod m); [reflexivity|]; rewrite <- (Z_mod_plus_full i 1 m); f_equal; lia|].
  intros i. unfold one_electron. rewrite Hp. pose proof (Z.mod_pos_bound i m ltac:(lia)).
  destruct (Z.eqb_spec (i mod m) 0), (Z.eqb_spec (i mod m) 1); repeat (match goal with |- context [?a =? ?b] => destruct (Z.eqb_spec a b) end); lia.
Qed.
Print Assumptions C96_one_electron.

(** two electrons back to back do not form a train: without the conductor between a tail and the next head the second is lost *)
Definition wire_args : @args Z Z Z Z Z := base (Some (stateless wire_rule)) None None [] ACTIVITIES_FIRST true.
Definition two_of (l : list Z) : list Z := repeat 0 6 ++ l ++ repeat 0 6.
Definition wire_rows (l : list Z) T : list (list Z) :=
  match cellular_automaton2d 3 6 1 "Moore" true with
  | Ok net => match evolve W0 20 0 net (Some (CList (two_of l))) (Some T) None wire_args with
              | Ok (_, traj) => map (fun st => match activities W0 st with Ok (Some d) => map (fun i => match dget d (6 + i) with Some a => a | None => -1 end) (zrange 0 6) | _ => [] end) traj
              | Err _ => [] end
  | Err _ => [] end.
Theorem C96_no_gap_refuted : exists l l', nth_error (wire_rows l 2) 0 = Some l /\ nth_error (wire_rows l 2) 1 = Some l' /\
  (forall i, nth_error l i = Some 1 -> nth_error l ((i + 5) mod 6) = Some 2) /\ count l 1 = 2%nat /\ count l' 1 = 1%nat.
Proof.
  exists [2; 1; 2; 1; 3; 3]. eexists. split; [vm_compute; reflexivity|]. split; [vm_compute; reflexivity|]. split; [|split; reflexivity].
  intros i E. do 6 (destruct i as [|i]; [first [discriminate | reflexivity]|]). destruct i; discriminate.
Qed.
Print Assumptions C96_no_gap_refuted.

Example C96_nonvacuous : wire_rows [2; 1; 3; 3; 3; 3] 7 =
  [[2;1;3;3;3;3]; [3;2;1;3;3;3]; [3;3;2;1;3;3]; [3;3;3;2;1;3]; [3;3;3;3;2;1]; [1;3;3;3;3;2]; [2;1;3;3;3;3]].
Proof. vm_compute. reflexivity. Qed.
