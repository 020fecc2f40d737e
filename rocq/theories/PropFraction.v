(** Property theorems for demos/continuous_automata (C100). *)
From Coq Require Import QArith Qpower Qabs Lqa.
From Verif Require Import Py PyFacts ListFacts Network Topology TopologySpec Evolve EvolveSpec EvolveProofs EvolveStatic CaSpec CaRun CaNets PropCa Fungal FungalSpec FungalProofs2 Continuous ContinuousProofs PropContinuous Maps.
Open Scope string_scope.
Open Scope list_scope.
Open Scope Z_scope.

(** [q] is a whole number of [1/d] *)
Definition whole_in (d q : Q) : Prop := exists z : Z, (q * d == inject_Z z)%Q.

(** [math.modf]: what is left when a whole number of the same sign is taken away *)
Theorem C100_modf : forall q : Q, exists z : Z, (q == inject_Z z + modf_frac q)%Q /\ (Qabs (modf_frac q) < 1)%Q /\ ((0 <= q)%Q -> (0 <= modf_frac q)%Q /\ 0 <= z) /\ ((q <= 0)%Q -> (modf_frac q <= 0)%Q /\ z <= 0).
Proof.
  intros q. exists (Z.quot (Qnum q) (Zpos (Qden q))). unfold modf_frac. set (z := Z.quot (Qnum q) (Zpos (Qden q))).
  split; [ring|].
  assert (Hd : 0 < Zpos (Qden q)) by reflexivity. pose proof (Z.quot_rem' (Qnum q) (Zpos (Qden q))) as E. fold z in E.
  assert (Eq : (q * inject_Z (Zpos (Qden q)) == inject_Z (Qnum q))%Q) by (unfold Qeq; cbn; lia).
  assert (EQ : (inject_Z (Qnum q) == inject_Z (Zpos (Qden q)) * inject_Z z + inject_Z (Z.rem (Qnum q) (Zpos (Qden q))))%Q) by (rewrite <- inject_Z_mult, <- inject_Z_plus, <- E; reflexivity).
  set (d := inject_Z (Zpos (Qden q))) in *. set (m := inject_Z (Z.rem (Qnum q) (Zpos (Qden q)))) in *.
  assert (Hdq : (0 < d)%Q) by (unfold d; change 0%Q with (inject_Z 0); rewrite <- Zlt_Qlt; assumption).
  assert (Hm : ((q - inject_Z z) * d == m)%Q) by lra.
  assert (Hlt : (- d < m < d)%Q).
  { unfold d, m. rewrite <- inject_Z_opp. rewrite <- !Zlt_Qlt. pose proof (Z.rem_bound_abs (Qnum q) (Zpos (Qden q)) ltac:(lia)) as Hb. lia. }
  set (y := (q - inject_Z z)%Q) in *.
  assert (Hsign : forall t : Q, (0 <= q)%Q -> 0 <= Qnum q) by (intros _ Hq; unfold Qle in Hq; cbn in Hq; lia).
  split; [|split].
  - apply Qabs_Qlt_condition. split; [destruct (Qlt_le_dec (-1) y)|destruct (Qlt_le_dec y 1)]; try assumption; exfalso; nra.
  - intros Hq. assert (Hn : 0 <= Qnum q) by (unfold Qle in Hq; cbn in Hq; lia). split; [|unfold z; apply Z.quot_pos; lia].
    assert (Hm0 : (0 <= m)%Q) by (unfold m; change 0%Q with (inject_Z 0); rewrite <- Zle_Qle; apply Z.rem_nonneg; lia). destruct (Qlt_le_dec y 0); [exfalso; nra|assumption].
  - intros Hq. assert (Hn : Qnum q <= 0) by (unfold Qle in Hq; cbn in Hq; lia). split.
    + assert (Hm0 : (m <= 0)%Q) by (unfold m; change 0%Q with (inject_Z 0); rewrite <- Zle_Qle; apply Z.rem_nonpos; lia). destruct (Qlt_le_dec 0 y); [exfalso; nra|assumption].
    + unfold z. rewrite <- (Z.opp_involutive (Qnum q)), Z.quot_opp_l by lia. pose proof (Z.quot_pos (- Qnum q) (Zpos (Qden q)) ltac:(lia) ltac:(lia)). lia.
Qed.
Print Assumptions C100_modf.

Section Theorems.
  Context {U I BA BN : Type}.
  Notation env := (env Z Z Q BA BN).
  Notation ctx := (node_ctx Z Z Q I).
  Notation args := (@args Z Z Q U I).

  (** C100: the next value of a cell is half the sum of its neighbourhood, less a whole number *)
  Theorem C100_continuous : forall (W : env) fuel (u0 : U) n c T (g : args),
    3 <= n -> static g (stateless continuous_rule) -> 1 <= T -> (Z.to_nat T <= fuel)%nat -> config W n (fun a => 0 <= a)%Q c ->
    exists net hs, cellular_automaton n 1 true = Ok net /\ runs W fuel u0 net c T g hs /\
      (forall k S S' v, nth_error hs k = Some S -> nth_error hs (Datatypes.S k) = Some S' -> 0 <= v < n ->
         exists x l m r z, dget S' v = Some x /\ dget S ((v - 1) mod n) = Some l /\ dget S v = Some m /\ dget S ((v + 1) mod n) = Some r /\
           (0 <= x < 1)%Q /\ (x + inject_Z z == (l + m + r) / 2)%Q) /\
      (* from whole numbers, the k-th timestep shows multiples of 1/2^k *)
      ((forall v, 0 <= v < n -> whole_in 1 (val (to_dict W c) v)) ->
       forall k S v, nth_error hs k = Some S -> 0 <= v < n -> whole_in (inject_Z (2 ^ Z.of_nat k)) (val S v)) /\
      (* zeroes away from the others stay zero *)
      (forall a m, 0 <= a -> 0 <= m -> a + m <= n -> (forall v, a <= v < a + m -> (val (to_dict W c) v == 0)%Q) ->
       forall k S v, nth_error hs k = Some S -> a + Z.of_nat k <= v < a + m - Z.of_nat k -> (val S v == 0)%Q).
  Proof.
    intros W fuel u0 n c T g Hn Hst HT Hf Hc.
    assert (Hc' : config W n (fun _ => True) c) by (destruct Hc as [Hl Hc]; split; [assumption|]; intros v Hv; destruct (Hc v Hv) as (a & Ea & _); exists a; auto).
    set (F := fun l m r : Q => modf_frac ((0 + l + m + r) / inject_Z 3 * (3 / 2))%Q).
    destruct (explicit_run W fuel u0 n c T g continuous_rule F Hn Hst HT Hf Hc') as (net & hs & E & Hrun & Hz & Hfull & Hstep).
    { intros x S v _ _ _ _ Ex. unfold continuous_rule. rewrite Ex. cbn [fold_left length]. change (Z.of_nat 3) with 3. rewrite qdiv_ok by discriminate. reflexivity. }
    assert (HF : forall l m r, ((0 + l + m + r) / inject_Z 3 * (3 / 2) == (l + m + r) / 2)%Q) by (intros; field).
    assert (Hpos : forall k S, nth_error hs k = Some S -> forall v, 0 <= v < n -> (0 <= val S v)%Q).
    { apply (along hs (to_dict W c) (fun _ S => forall v, 0 <= v < n -> (0 <= val S v)%Q)); [assumption| |].
      - intros v Hv. destruct Hc as [_ Hc]. destruct (Hc v Hv) as (a & Ea & Ha). unfold val. rewrite Ea. assumption.
      - intros k S S' Ek Ek' IH v Hv. rewrite (Hstep k S S' v Ek Ek' Hv). unfold F. set (y := (_ * _)%Q). destruct (C100_modf y) as (z & _ & _ & Hp & _). apply Hp. unfold y. rewrite HF.
        pose proof (IH _ (mod_in n (v - 1) Hn)). pose proof (IH v Hv). pose proof (IH _ (mod_in n (v + 1) Hn)). unfold Qdiv. change (/ 2)%Q with (1 # 2)%Q. lra. }
    exists net, hs. split; [assumption|]. split; [assumption|].
    assert (Hnext : forall k S S' v, nth_error hs k = Some S -> nth_error hs (Datatypes.S k) = Some S' -> 0 <= v < n ->
      exists z, (0 <= val S' v < 1)%Q /\ (val S' v + inject_Z z == (val S ((v - 1) mod n) + val S v + val S ((v + 1) mod n)) / 2)%Q).
    { intros k S S' v Ek Ek' Hv. rewrite (Hstep k S S' v Ek Ek' Hv). unfold F. pose proof (HF (val S ((v - 1) mod n)) (val S v) (val S ((v + 1) mod n))) as HFv. set (y := (_ * _)%Q) in *. destruct (C100_modf y) as (z & Ez & Hlt & Hp & _).
      assert (Hy : (0 <= y)%Q). { rewrite HFv. pose proof (Hpos k S Ek _ (mod_in n (v - 1) Hn)). pose proof (Hpos k S Ek v Hv). pose proof (Hpos k S Ek _ (mod_in n (v + 1) Hn)). unfold Qdiv. change (/ 2)%Q with (1 # 2)%Q. lra. }
      exists z. apply Qabs_Qlt_condition in Hlt. destruct (Hp Hy) as [Hp0 _]. split; [lra|]. transitivity y; [rewrite Qplus_comm; symmetry; exact Ez|exact HFv]. }
    split; [|split].
    - intros k S S' v Ek Ek' Hv. pose proof (full_nth _ _ _ _ Hfull Ek) as HS. pose proof (full_nth _ _ _ _ Hfull Ek') as HS'. destruct (Hnext k S S' v Ek Ek' Hv) as (z & Hx & Ez).
      exists (val S' v), (val S ((v - 1) mod n)), (val S v), (val S ((v + 1) mod n)), z.
      split; [apply HS'; assumption|]. split; [apply HS, mod_in; assumption|]. split; [apply HS; assumption|]. split; [apply HS, mod_in; assumption|]. auto.
    - intros H0. intros k S v Ek. revert v. revert k S Ek. apply (along hs (to_dict W c) (fun k S => forall v, 0 <= v < n -> whole_in (inject_Z (2 ^ Z.of_nat k)) (val S v))); [assumption|exact H0|].
      intros k S S' Ek Ek' IH v Hv. destruct (Hnext k S S' v Ek Ek' Hv) as (z & _ & Ez). destruct (IH _ (mod_in n (v - 1) Hn)) as [a Ea]. destruct (IH v Hv) as [b Eb]. destruct (IH _ (mod_in n (v + 1) Hn)) as [d Ed].
      exists (a + b + d - z * 2 ^ Z.of_nat (Datatypes.S k)). rewrite Nat2Z.inj_succ, Z.pow_succ_r by lia. unfold Zminus. rewrite !inject_Z_plus, inject_Z_opp, !inject_Z_mult. change (inject_Z 2) with 2%Q. rewrite <- Ea, <- Eb, <- Ed.
      set (P := inject_Z (2 ^ Z.of_nat k)) in *. assert (Ex : (val S' v == (val S ((v - 1) mod n) + val S v + val S ((v + 1) mod n)) * (1 # 2) - inject_Z z)%Q) by (unfold Qdiv in Ez; change (/ 2)%Q with (1 # 2)%Q in Ez; lra).
      rewrite Ex. ring.
    - intros a m Ha Hm Ham H0. intros k S v Ek. revert v. revert k S Ek. apply (along hs (to_dict W c) (fun k S => forall v, a + Z.of_nat k <= v < a + m - Z.of_nat k -> (val S v == 0)%Q)); [assumption|intros v Hv; apply H0; lia|].
      intros k S S' Ek Ek' IH v Hv. rewrite Nat2Z.inj_succ in Hv. assert (Hvn : 0 <= v < n) by lia. destruct (Hnext k S S' v Ek Ek' Hvn) as (z & Hx & Ez).
      rewrite (Z.mod_small (v - 1)), (Z.mod_small (v + 1)) in Ez by lia. rewrite (IH (v - 1)), (IH v), (IH (v + 1)) in Ez by lia.
      assert (Ez' : (val S' v + inject_Z z == 0)%Q) by (rewrite Ez; reflexivity).
      assert (z = 0); [|subst z; change (inject_Z 0) with 0%Q in Ez'; lra]. assert (Hzq : (-1 < inject_Z z /\ inject_Z z <= 0)%Q) by (split; lra).
      destruct Hzq as [Hz1 Hz2]. change (-1)%Q with (inject_Z (-1)) in Hz1. change 0%Q with (inject_Z 0) in Hz2. rewrite <- Zlt_Qlt in Hz1. rewrite <- Zle_Qle in Hz2. lia.
  Qed.
End Theorems.
Print Assumptions C100_continuous.

(** ** Examples: the initial conditions of the demo *)
Definition one_hot : list Q := (repeat 0 100 ++ [1] ++ repeat 0 99)%Q.
Example C100_example : static (qargs continuous_rule []) (stateless continuous_rule) /\ config Wq 200 (fun a => 0 <= a)%Q (CList one_hot) /\
  (forall v, 0 <= v < 200 -> whole_in 1 (val (to_dict Wq (CList one_hot)) v)) /\ (forall v, 0 <= v < 0 + 100 -> (val (to_dict Wq (CList one_hot)) v == 0)%Q).
Proof.
  assert (Hall : forallb (fun v => match dget (to_dict Wq (CList one_hot)) v with Some a => Qeq_bool a (if v =? 100 then 1 else 0) | None => false end) (zrange 0 200) = true) by (vm_compute; reflexivity).
  rewrite forallb_forall in Hall.
  assert (Hv : forall v, 0 <= v < 200 -> exists a, dget (to_dict Wq (CList one_hot)) v = Some a /\ (a == if v =? 100 then 1 else 0)%Q).
  { intros v Hv. specialize (Hall v (proj2 (in_zrange 0 200 v) Hv)). destruct (dget (to_dict Wq (CList one_hot)) v) as [a|]; [|discriminate]. exists a. split; [reflexivity|]. apply Qeq_bool_iff. assumption. }
  clear Hall. split; [repeat split|]. split; [split; [reflexivity|]|split].
  - intros v Hn. destruct (Hv v Hn) as (a & Ea & Eq). exists a. split; [exact Ea|]. rewrite Eq. destruct (v =? 100); vm_compute; discriminate.
  - intros v Hn. destruct (Hv v Hn) as (a & Ea & Eq). unfold val. rewrite Ea. exists (if v =? 100 then 1 else 0). rewrite Eq. destruct (v =? 100); reflexivity.
  - intros v Hn. destruct (Hv v ltac:(lia)) as (a & Ea & Eq). unfold val. rewrite Ea, Eq. destruct (Z.eqb_spec v 100); [lia|reflexivity].
Qed.
(** the fractional part of a negative number is negative *)
Example C100_negative : (modf_frac (- (5 # 4)) == - (1 # 4))%Q.
Proof. reflexivity. Qed.
