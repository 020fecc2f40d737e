(** * C51, C52, C67: Hopfield nets *)
From Verif Require Import Py PyFacts ListFacts Network NetworkSpec NetworkProofs Topology TopologySpec TopologyProofs3 PropTopology Evolve EvolveSpec Async AsyncProofs PropEvolve HopfieldSpec Hopfield HopfieldProofs HopfieldProofs2 HopfieldProofs3.
Open Scope string_scope.
Open Scope list_scope.
Open Scope Z_scope.

Ltac bip := unfold bipolar; repeat first [apply Forall_cons | apply Forall_nil | (left; reflexivity) | (right; reflexivity)].

(** C51: no pattern is longer than the first *)
Theorem C51_hebbian : forall P p0, nth_error P 0 = Some p0 -> Forall (fun p => (length p <= length p0)%nat) P ->
  let m := Z.of_nat (length p0) in
  exists M net, train P = Ok (M, net) /\ is_square m M /\
    (forall i j, 0 <= i < m -> 0 <= j < m -> at_ M i j = Some (if i =? j then 0 else zsum (map (fun p => at0 p i * at0 p j) P)) /\ at_ M i j = at_ M j i) /\
    NoDup (nodes net) /\
    (forall i, In i (nodes net) <-> exists j x, x <> 0 /\ entry_is M i j x) /\
    (forall i j x, entry_is M i j x -> x <> 0 -> edge net i j = Ok [[("weight", x)]]) /\
    (forall i j, (forall x, entry_is M i j x -> x = 0) -> edge net i j = Err KeyError).
Proof.
  intros P p0 E0 Hl m. destruct (train_ok P p0 E0 Hl) as (M & net & E & HM & HR & Hrot). exists M, net. split; [assumption|]. split; [apply HM|].
  assert (Hat : forall i j, 0 <= i < m -> 0 <= j < m -> at_ M i j = Some (hebb P i j)) by (apply HM).
  assert (Hin : forall i j x, entry_is M i j x -> 0 <= i < m /\ 0 <= j < m).
  { intros i j x (Hi & Hj & Ha). destruct HM as [[Hl1 Hr] _]. unfold at_ in Ha. destruct (nth_error M (Z.to_nat i)) as [row|] eqn:Er; [|discriminate].
    assert (H1 : (Z.to_nat i < length M)%nat) by (apply nth_error_Some; congruence). assert (H2 : (Z.to_nat j < length row)%nat) by (apply nth_error_Some; congruence). specialize (Hr row (nth_error_In _ _ Er)). fold m in Hr, Hl1. lia. }
  split; [intros i j Hi Hj; rewrite !Hat by assumption; split; [reflexivity|f_equal; apply hebb_sym]|].
  destruct (C06_adjacency_roundtrip Z 0 1 Z.add nzb M m) as (net' & En' & _ & Ht & Hf & Hnd & Hnodes & _).
  - intros v. unfold nzb. destruct (Z.eqb_spec v 0); cbn; split; congruence.
  - reflexivity.
  - apply HM.
  - assert (Enet : net' = net).
    { unfold train in E. destruct (py_nth P 0); [|discriminate]. cbn [of_opt rbind] in E. destruct (rfold learn P (zero_matrix (Z.of_nat (length l)))) as [M'|]; [|discriminate]. cbn [rbind] in E.
      destruct (from_adjacency_matrix nzb M') as [n' [u|]] eqn:En; [|discriminate]. injection E as -> ->. rewrite En in En'. congruence. }
    subst net'. split; [assumption|]. split; [|split; assumption].
    intros i. rewrite Hnodes. split.
    + intros (j & x & Hx & [He|He]); exists j, x; (split; [assumption|]); [assumption|]. destruct (Hin _ _ _ He) as [Hj Hi]. split; [lia|]. split; [lia|]. destruct He as (_ & _ & He). rewrite Hat in He |- * by assumption. rewrite hebb_sym. assumption.
    + intros (j & x & Hx & He). exists j, x. auto.
Qed.

(** a longer pattern is out of the matrix' range; an empty training set has no first pattern *)
Theorem C51_too_long : forall P p0, nth_error P 0 = Some p0 -> Exists (fun p => (length p0 < length p)%nat) P -> train P = Err IndexError.
Proof. exact train_too_long. Qed.
Theorem C51_no_patterns : train [] = Err IndexError.
Proof. reflexivity. Qed.

(** an index whose weights cancel out is not a node *)
Theorem C51_index_dropped_refuted : exists P M net, Forall bipolar P /\ train P = Ok (M, net) /\ length M = 3%nat /\ ~ In 2 (nodes net).
Proof.
  exists [[1; 1; 1]; [1; 1; -1]]. eexists. eexists. split; [bip|]. split; [vm_compute; reflexivity|]. split; [reflexivity|]. vm_compute. intros [E|[E|[]]]; discriminate.
Qed.

Section Runs.
  Context {BA BN I : Type}.
  Variable W : env Z Z Z BA BN.

  (** HopfieldNet(n), trained on patterns of which the first has n components; every index has a non-zero weight; the shuffles
      return permutations of 0 .. n-1; the evolution starts from the bipolar list [v0] *)
  Definition hopfield_start (P : list (list Z)) p0 M net (shuffle : nat -> nat -> list Z) a v0 (inp : option (@input Z Z Z (unit * async Z) I)) g : Prop :=
    nth_error P 0 = Some p0 /\ p0 <> [] /\ train P = Ok (M, net) /\
    (forall i, 0 <= i < Z.of_nat (length p0) -> exists j, 0 <= j < Z.of_nat (length p0) /\ hebb P i j <> 0) /\
    hopfield_setup shuffle inp g /\ (forall i, e_lab W i = Z.of_nat i) /\ (forall d k, Permutation (shuffle d k) (zrange 0 (Z.of_nat k))) /\
    hopfield_init shuffle (length p0) = Ok a /\ bipolar v0 /\ length v0 = length p0.

  Lemma start_run P p0 M net shuffle fuel inp g ts v0 uf traj a : hopfield_start P p0 M net shuffle a v0 inp g ->
    evolve W fuel (tt, a) net (Some (CList v0)) ts inp g = Ok (uf, traj) ->
    exists vs, nth_error vs 0 = Some v0 /\ Forall2 (shows W (Z.of_nat (length p0))) traj vs /\ Forall (fun v => Z.of_nat (length v) = Z.of_nat (length p0) /\ bipolar v) vs /\
      forall k v v', nth_error vs k = Some v -> nth_error vs (S k) = Some v' -> updates (Z.of_nat (length p0)) (hebb P) v v'.
  Proof.
    intros (E0 & Hne & Et & Hconn & Hset & Hlab & Hsh & Ei & Hb & Hl) E.
    assert (Hall : Forall (fun p => (length p <= length p0)%nat) P).
    { destruct (Forall_Exists_dec (fun p => (length p <= length p0)%nat) (fun p => le_dec _ _) P) as [Hx|Hx]; [assumption|]. exfalso. rewrite (train_too_long P p0 E0) in Et; [discriminate|].
      eapply Exists_impl; [|exact Hx]. cbn. intros; lia. }
    destruct (train_ok P p0 E0 Hall) as (M' & net' & Et' & HM & HR & Hrot). rewrite Et in Et'. injection Et' as <- <-.
    eapply (hopfield_run W (Z.of_nat (length p0)) (hebb P) M net shuffle fuel inp g ts v0 uf traj a); try eassumption.
    - apply hebb_sym.
    - apply hebb_diag.
    - destruct p0; [congruence|cbn; lia].
    - rewrite Nat2Z.id. assumption.
    - lia.
  Qed.

  (** C52: [energy2] is twice the energy; the state changes at most n + sum |w_ij| times, however long the run *)
  Theorem C52_energy : forall P p0 M net shuffle fuel inp g ts v0 uf traj a, hopfield_start P p0 M net shuffle a v0 inp g ->
    evolve W fuel (tt, a) net (Some (CList v0)) ts inp g = Ok (uf, traj) ->
    exists vs, nth_error vs 0 = Some v0 /\ Forall2 (shows W (Z.of_nat (length p0))) traj vs /\ Forall bipolar vs /\
      (forall k v v', nth_error vs k = Some v -> nth_error vs (S k) = Some v' -> energy2 (Z.of_nat (length p0)) (hebb P) v' <= energy2 (Z.of_nat (length p0)) (hebb P) v) /\
      changes vs <= total_weight (Z.of_nat (length p0)) (hebb P) + Z.of_nat (length p0).
  Proof.
    intros P p0 M net shuffle fuel inp g ts v0 uf traj a Hs E. destruct (start_run _ _ _ _ _ _ _ _ _ _ _ _ _ Hs E) as (vs & Hz & Hf & Hv & Hu). exists vs. split; [assumption|]. split; [assumption|].
    split; [eapply Forall_impl; [|exact Hv]; intros v [_ Hb]; assumption|]. split.
    - intros k v v' Ek Ek'. rewrite Forall_forall in Hv. destruct (Hv v (nth_error_In _ _ Ek)) as [Hl Hb]. destruct (Hv v' (nth_error_In _ _ Ek')) as [Hl' Hb'].
      apply (update_descent _ _ (hebb_sym P) (hebb_diag P) v v' Hl); [lia|assumption|]. eapply Hu; eassumption.
    - apply changes_bound; [apply hebb_sym|apply hebb_diag|assumption|assumption|lia].
  Qed.

  (** C67: one stored pattern; fewer than half of the components are wrong *)
  Theorem C67_recall : forall p M net shuffle fuel inp g ts v0 uf traj a, hopfield_start [p] p M net shuffle a v0 inp g -> bipolar p ->
    2 * hamming (Z.of_nat (length p)) p v0 <= Z.of_nat (length p) - 2 ->
    evolve W fuel (tt, a) net (Some (CList v0)) ts inp g = Ok (uf, traj) ->
    exists vs, nth_error vs 0 = Some v0 /\ Forall2 (shows W (Z.of_nat (length p))) traj vs /\
      forall k v v', nth_error vs k = Some v -> nth_error vs (S k) = Some v' ->
        hamming (Z.of_nat (length p)) p v' <= hamming (Z.of_nat (length p)) p v /\
        exists c, 0 <= c < Z.of_nat (length p) /\ at0 v' c = at0 p c /\ forall i, 0 <= i < Z.of_nat (length p) -> i <> c -> at0 v' i = at0 v i.
  Proof.
    intros p M net shuffle fuel inp g ts v0 uf traj a Hs Hp Hh E. destruct (start_run _ _ _ _ _ _ _ _ _ _ _ _ _ Hs E) as (vs & Hz & Hf & Hv & Hu). exists vs. split; [assumption|]. split; [assumption|].
    rewrite Forall_forall in Hv. set (m := Z.of_nat (length p)) in *.
    assert (Hall : forall k v, nth_error vs k = Some v -> 2 * hamming m p v <= m - 2).
    { induction k as [|k IH]; intros v' Ek'.
      - congruence.
      - destruct (nth_error vs k) as [v|] eqn:Ek; [|apply nth_error_None in Ek; assert (Hlt : (S k < length vs)%nat) by (apply nth_error_Some; congruence); lia].
        specialize (IH v eq_refl). destruct (Hv v (nth_error_In _ _ Ek)) as [Hl Hb]. destruct (recall_step m p eq_refl Hp v v' Hb Hl IH (Hu k v v' Ek Ek')) as (c & Hc & Ec & Hw). pose proof (recall_hamming m p v v' c Hc Ec Hw). lia. }
    intros k v v' Ek Ek'. destruct (Hv v (nth_error_In _ _ Ek)) as [Hl Hb]. destruct (recall_step m p eq_refl Hp v v' Hb Hl (Hall k v Ek) (Hu k v v' Ek Ek')) as (c & Hc & Ec & Hw).
    split; [eapply recall_hamming; eassumption|]. exists c. auto.
  Qed.

  (** the stored pattern itself stays *)
  Theorem C67_stored_pattern_stays : forall p M net shuffle fuel inp g ts uf traj a, hopfield_start [p] p M net shuffle a p inp g ->
    evolve W fuel (tt, a) net (Some (CList p)) ts inp g = Ok (uf, traj) -> Forall (fun s => shows W (Z.of_nat (length p)) s p) traj.
  Proof.
    intros p M net shuffle fuel inp g ts uf traj a Hs E. assert (Hb : bipolar p) by (apply Hs).
    assert (Hm : (2 <= length p)%nat).
    { destruct Hs as (_ & Hne & _ & Hconn & _). destruct p as [|x [|y p]]; [congruence| |cbn; lia]. exfalso. destruct (Hconn 0 ltac:(cbn; lia)) as (j & Hj & Hw). cbn [length] in Hj. assert (j = 0) by lia. subst j. apply Hw. reflexivity. }
    assert (H0 : hamming (Z.of_nat (length p)) p p = 0).
    { unfold hamming. rewrite (sum_ext _ _ (fun _ => 0)) by (intros i _; rewrite Z.eqb_refl; reflexivity). unfold sum_upto. induction (zrange 0 (Z.of_nat (length p))) as [|i l IH]; [reflexivity|]. cbn [map]. rewrite zsum_cons, IH. reflexivity. }
    destruct (start_run _ _ _ _ _ _ _ _ _ _ _ _ _ Hs E) as (vs & Hz & Hf & Hv & Hu). rewrite Forall_forall in Hv.
    assert (Hall : forall k v, nth_error vs k = Some v -> v = p).
    { induction k as [|k IH]; intros v' Ek'; [congruence|]. destruct (nth_error vs k) as [v|] eqn:Ek; [|apply nth_error_None in Ek; assert (Hlt : (S k < length vs)%nat) by (apply nth_error_Some; congruence); lia].
      specialize (IH v eq_refl). subst v. destruct (recall_step _ p eq_refl Hb p v' Hb eq_refl ltac:(lia) (Hu k p v' Ek Ek')) as (c & Hc & Ec & Hw). destruct (Hv v' (nth_error_In _ _ Ek')) as [Hl' _].
      symmetry. apply (vec_ext (Z.of_nat (length p))); [reflexivity|lia|]. intros i Hi. destruct (Z.eq_dec i c) as [->|Hx]; auto. }
    clear - Hf Hall. assert (Hin : forall v, In v vs -> v = p) by (intros v Hv; apply In_nth_error in Hv; destruct Hv as [k Ek]; eauto). clear Hall. induction Hf as [|s v traj vs Hs Hf IH]; [constructor|]. constructor.
    - rewrite <- (Hin v (or_introl eq_refl)) at 2. assert (Ev := Hin v (or_introl eq_refl)). subst v. assumption.
    - apply IH. intros v' Hv'. apply Hin. right. assumption.
  Qed.
End Runs.

Print Assumptions C51_hebbian.
Print Assumptions C51_too_long.
Print Assumptions C51_no_patterns.
Print Assumptions C51_index_dropped_refuted.
Print Assumptions C52_energy.
Print Assumptions C67_recall.
Print Assumptions C67_stored_pattern_stays.

(** ** Examples *)
Definition hop_args (shuffle : nat -> nat -> list Z) : @args Z Z Z (unit * async Z) Z :=
  mkArgs (Some (hopfield_activity_rule shuffle)) None None [] ACTIVITIES_FIRST true false true true false None.
Definition hop_shown (r : res (unit * async Z * list (state Z Z Z unit unit))) : res (list (option (list Z))) :=
  ' (_, tr) <- r ;; rmap (fun s => a <- activities W0 s ;; Ok (option_map (fun S => map (fun v => match dget S v with Some x => x | None => 0 end) [0; 1; 2; 3]) a)) tr.

Definition sorted_shuffle (d k : nat) : list Z := zrange 0 (Z.of_nat k).

Example C51_nonvacuous : exists M net, train [[1; -1; 1]; [1; 1]; [-1; 1; 1]] = Ok (M, net) /\ M = [[0; -1; 0]; [-1; 0; 0]; [0; 0; 0]] /\ nodes net = [0; 1].
Proof. eexists. eexists. split; [vm_compute; reflexivity|]. split; reflexivity. Qed.

Ltac hop_start := unfold hopfield_start; split; [reflexivity|]; split; [discriminate|]; split; [vm_compute; reflexivity|]; split;
  [ let i := fresh in let Hi := fresh in let Hx := fresh in intros i Hi; exists (if i =? 0 then 3 else 0); cbn in Hi; assert (Hx : i = 0 \/ i = 1 \/ i = 2 \/ i = 3) by lia; destruct Hx as [-> |[-> |[-> | ->]]]; (split; [cbn; lia|vm_compute; discriminate])
  | split; [unfold hopfield_setup; splits; reflexivity|]; split; [reflexivity|]; split; [reflexivity|]; split; [reflexivity|]; split; [bip|reflexivity] ].

Definition hop_patterns := [[1; -1; 1; -1]; [1; 1; 1; -1]; [1; 1; -1; -1]].
Example C52_nonvacuous : exists M net a uf traj,
  hopfield_start W0 hop_patterns [1; -1; 1; -1] M net sorted_shuffle a [-1; 1; 1; 1] None (hop_args sorted_shuffle) /\
  evolve W0 9 (tt, a) net (Some (CList [-1; 1; 1; 1])) (Some 6) None (hop_args sorted_shuffle) = Ok (uf, traj) /\
  hop_shown (Ok (uf, traj)) = Ok [Some [-1; 1; 1; 1]; Some [-1; 1; 1; 1]; Some [-1; -1; 1; 1]; Some [-1; -1; -1; 1]; Some [-1; -1; -1; 1]; Some [-1; -1; -1; 1]] /\
  energy2 4 (hebb hop_patterns) [-1; -1; -1; 1] < energy2 4 (hebb hop_patterns) [-1; 1; 1; 1].
Proof.
  eexists. eexists. eexists. eexists. eexists. split; [hop_start|]. split; [vm_compute; reflexivity|]. split; [vm_compute; reflexivity|reflexivity].
Qed.

Example C67_nonvacuous : exists M net a uf traj,
  hopfield_start W0 [[1; -1; 1; -1]] [1; -1; 1; -1] M net sorted_shuffle a [1; 1; 1; -1] None (hop_args sorted_shuffle) /\
  2 * hamming 4 [1; -1; 1; -1] [1; 1; 1; -1] <= 4 - 2 /\
  evolve W0 9 (tt, a) net (Some (CList [1; 1; 1; -1])) (Some 4) None (hop_args sorted_shuffle) = Ok (uf, traj) /\
  hop_shown (Ok (uf, traj)) = Ok [Some [1; 1; 1; -1]; Some [1; 1; 1; -1]; Some [1; -1; 1; -1]; Some [1; -1; 1; -1]].
Proof.
  eexists. eexists. eexists. eexists. eexists. split; [hop_start|]. split; [vm_compute; congruence|]. split; [vm_compute; reflexivity|vm_compute; reflexivity].
Qed.

(** index 3 has no weight, so the net has three nodes while the update cycle counts four: in the third step nodes 0 and 2 are updated at
    once, and the energy rises *)
Definition gap_patterns := [[1; 1; -1; 1]; [1; 1; -1; -1]; [1; -1; 1; 1]; [1; -1; 1; -1]; [1; 1; 1; 1]; [1; 1; 1; -1]; [1; 1; 1; 1]; [1; 1; 1; -1]].
Definition gap_shuffle (d k : nat) : list Z :=
  if Nat.eqb k 4 then match d with O => [3; 0; 1; 2] | 1%nat => [1; 0; 2; 3] | _ => [0; 1; 2; 3] end else zrange 0 (Z.of_nat k).
Theorem C52_dropped_index_refuted : exists M net a uf traj,
  Forall bipolar gap_patterns /\ train gap_patterns = Ok (M, net) /\ hopfield_init gap_shuffle 4 = Ok a /\
  (forall d k, Permutation (gap_shuffle d k) (zrange 0 (Z.of_nat k))) /\
  evolve W0 9 (tt, a) net (Some (CDict [(0, -1); (1, -1); (2, 1)])) (Some 4) None (hop_args gap_shuffle) = Ok (uf, traj) /\
  hop_shown (Ok (uf, traj)) = Ok [Some [-1; -1; 1; 0]; Some [-1; -1; 1; 0]; Some [-1; -1; 1; 0]; Some [1; -1; -1; 0]] /\
  energy2 4 (hebb gap_patterns) [-1; -1; 1; 0] < energy2 4 (hebb gap_patterns) [1; -1; -1; 0].
Proof.
  eexists. eexists. eexists. eexists. eexists. split; [bip|]. split; [vm_compute; reflexivity|]. split; [reflexivity|]. split.
  - intros d k. unfold gap_shuffle. destruct (Nat.eqb_spec k 4) as [->|]; [|reflexivity]. change (zrange 0 (Z.of_nat 4)) with [0; 1; 2; 3]. destruct d as [|[|d]]; (apply NoDup_Permutation; [nodup|nodup|intros x; cbn; tauto]).
  - split; [vm_compute; reflexivity|]. split; [vm_compute; reflexivity|]. reflexivity.
Qed.
Print Assumptions C52_dropped_index_refuted.
