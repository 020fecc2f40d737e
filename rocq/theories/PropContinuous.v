(** Property theorems for demos/continuous_time_models (C93: diffusion, convection, Burgers; C94: waves and the spring). *)
From Coq Require Import QArith Lqa Permutation.
From Verif Require Import Py PyFacts ListFacts Network Topology TopologySpec Evolve EvolveSpec EvolveProofs EvolveStatic CaSpec CaRun CaNets PropCa Fungal FungalSpec FungalProofs2 Machines Continuous ContinuousProofs.
Open Scope string_scope.
Open Scope list_scope.
Open Scope Z_scope.

(** all values of the ring lie between [lo] and [hi] *)
Definition in_bounds (n : Z) (lo hi : Q) (S : dict Z Q) : Prop := forall v, 0 <= v < n -> exists a, dget S v = Some a /\ (lo <= a <= hi)%Q.

Lemma qdiv_ok a b : ~ (b == 0)%Q -> qdiv a b = Ok (a / b)%Q.
Proof. intros Hb. unfold qdiv. destruct (Qeq_bool b 0) eqn:E; [apply Qeq_bool_iff in E; contradiction|reflexivity]. Qed.
Lemma sq_ne0 d : ~ (d == 0)%Q -> ~ (d * d == 0)%Q.
Proof. intros Hd E. apply Qmult_integral in E. destruct E; contradiction. Qed.
Lemma mod_in n v : 3 <= n -> 0 <= v mod n < n.
Proof. intros Hn. apply Z.mod_pos_bound. lia. Qed.

(** an invariant of consecutive states holds throughout *)
Lemma along {X} (hs : list X) (s0 : X) (P : nat -> X -> Prop) : nth_error hs 0 = Some s0 -> P 0%nat s0 ->
  (forall k S S', nth_error hs k = Some S -> nth_error hs (Datatypes.S k) = Some S' -> P k S -> P (Datatypes.S k) S') -> forall k S, nth_error hs k = Some S -> P k S.
Proof.
  intros H0 HP Hs. induction k as [|k IH]; intros S E; [congruence|].
  destruct (nth_error hs k) as [S0|] eqn:E0; [|exfalso; apply nth_error_None in E0; assert (nth_error hs (Datatypes.S k) <> None) as Hne by congruence; apply nth_error_Some in Hne; lia].
  eapply Hs; [exact E0|exact E|apply IH; reflexivity].
Qed.

Lemma val_bounds n lo hi S : full n S -> in_bounds n lo hi S <-> forall v, 0 <= v < n -> (lo <= val S v <= hi)%Q.
Proof.
  intros Hf. split; intros H v Hv.
  - destruct (H v Hv) as (a & E & B). unfold val. rewrite E. assumption.
  - exists (val S v). split; [apply Hf; assumption|apply H; assumption].
Qed.
Lemma full_nth n (hs : list (dict Z Q)) k S : Forall (full n) hs -> nth_error hs k = Some S -> full n S.
Proof. intros Hf E. rewrite Forall_forall in Hf. apply Hf. eapply nth_error_In. exact E. Qed.

(** Leibniz-equal rationals are equal, convex combinations stay between the bounds *)
Lemma convex3 a b c x y z lo hi : (0 <= a)%Q -> (0 <= b)%Q -> (0 <= c)%Q -> (a + b + c == 1)%Q -> (lo <= x <= hi)%Q -> (lo <= y <= hi)%Q -> (lo <= z <= hi)%Q ->
  (lo <= a * x + b * y + c * z <= hi)%Q.
Proof. intros Ha Hb Hc E Hx Hy Hz. split; nra. Qed.

(** 1 in cell 0, 0 elsewhere *)
Definition spike (n : Z) : dict Z Q := map (fun v => (v, if v =? 0 then 1 else 0)%Q) (zrange 0 n).
Lemma dget_table {B} (f : Z -> B) l v : In v l -> dget (map (fun w => (w, f w)) l) v = Some (f v).
Proof.
  induction l as [|a l IH]; [intros []|]. intros Hin. cbn [map dget]. destruct (eqd v a) as [->|Hne]; [reflexivity|].
  destruct Hin as [->|Hin]; [contradiction|]. apply IH. assumption.
Qed.

Section Theorems.
  Context {U I BA BN : Type}.
  Notation env := (env Z Z Q BA BN).
  Notation ctx := (node_ctx Z Z Q I).
  Notation args := (@args Z Z Q U I).

  (** *** C93: diffusion *)
  Lemma diffusion_explicit n nu dt dx (h : ctx -> res Q) : 3 <= n -> ~ (dx == 0)%Q -> (forall x, h x = diffusion_rule n nu dt dx x) \/ (forall x, h x = simple_diffusion_rule (nu * dt / (dx * dx)) x) ->
    forall (x : ctx) S v, 0 <= v < n -> x_label x = v -> x_cur x = val S v -> (forall w, 0 <= w < n -> activity_of x w = Ok (val S w)) ->
      x_nacts x = [val S ((v - 1) mod n); val S v; val S ((v + 1) mod n)] ->
      h x = Ok ((fun l u r => u + (nu * dt / (dx * dx)) * (r - 2 * u + l)) (val S ((v - 1) mod n)) (val S v) (val S ((v + 1) mod n)))%Q.
  Proof.
    intros Hn Hdx Hh x S v Hv E1 E2 E3 E4. destruct Hh as [Hh|Hh]; rewrite Hh.
    - unfold diffusion_rule. rewrite E1, E2, !E3 by (apply mod_in; assumption). cbn [rbind]. rewrite qdiv_ok by (apply sq_ne0; assumption). reflexivity.
    - unfold simple_diffusion_rule. rewrite E4, E2. reflexivity.
  Qed.

  Theorem C93_diffusion : forall (W : env) fuel (u0 : U) n nu dt dx c T (g : args) (h : ctx -> res Q),
    3 <= n -> ~ (dx == 0)%Q -> (forall x, h x = diffusion_rule n nu dt dx x) \/ (forall x, h x = simple_diffusion_rule (nu * dt / (dx * dx)) x) ->
    static g (stateless h) -> 1 <= T -> (Z.to_nat T <= fuel)%nat -> config W n (fun _ => True) c ->
    let F := (nu * dt / (dx * dx))%Q in
    exists net hs, cellular_automaton n 1 true = Ok net /\ runs W fuel u0 net c T g hs /\
      (forall k S, nth_error hs k = Some S -> full n S /\ (around n (val S) == around n (val (to_dict W c)))%Q) /\
      (forall k S S' v, nth_error hs k = Some S -> nth_error hs (Datatypes.S k) = Some S' -> 0 <= v < n ->
         (val S' v - val S v == F * (val S ((v + 1) mod n) - 2 * val S v + val S ((v - 1) mod n)))%Q) /\
      ((0 <= F <= 1 # 2)%Q ->
        (forall lo hi k S, in_bounds n lo hi (to_dict W c) -> nth_error hs k = Some S -> in_bounds n lo hi S) /\
        (forall k S S', nth_error hs k = Some S -> nth_error hs (Datatypes.S k) = Some S' -> (around n (fun v => val S' v * val S' v) <= around n (fun v => val S v * val S v))%Q)).
  Proof.
    intros W fuel u0 n nu dt dx c T g h Hn Hdx Hh Hst HT Hf Hc F.
    destruct (explicit_run W fuel u0 n c T g h _ Hn Hst HT Hf Hc (diffusion_explicit n nu dt dx h Hn Hdx Hh)) as (net & hs & E & Hrun & Hz & Hfull & Hstep).
    cbv beta in Hstep. fold F in Hstep. exists net, hs. split; [assumption|]. split; [assumption|]. split; [|split].
    - intros k S Ek. split; [eapply full_nth; eassumption|]. revert k S Ek. apply (along hs (to_dict W c)); [assumption|reflexivity|].
      intros k S S' Ek Ek' IH. rewrite <- IH. rewrite (around_ext n (val S') (fun v => val S v + (F * val S ((v + 1) mod n) + ((- 2 * F) * val S v + F * val S ((v + (-1)) mod n))))%Q).
      2:{ intros v Hv. rewrite (Hstep k S S' v Ek Ek' Hv). change (v - 1) with (v + (-1)). ring. }
      rewrite !around_add, !around_scale. rewrite (around_shift n 1 (val S)), (around_shift n (-1) (val S)) by lia. ring.
    - intros k S S' v Ek Ek' Hv. rewrite (Hstep k S S' v Ek Ek' Hv). ring.
    - intros HF. split.
      + intros lo hi k S Hb0. revert k S. apply (along hs (to_dict W c) (fun _ S => in_bounds n lo hi S)); [assumption|assumption|].
        intros k S S' Ek Ek' IH. pose proof (full_nth _ _ _ _ Hfull Ek) as HS. pose proof (full_nth _ _ _ _ Hfull Ek') as HS'.
        pose proof (proj1 (val_bounds n lo hi S HS) IH) as IHv. apply (proj2 (val_bounds n lo hi S' HS')). clear IH. rename IHv into IH. intros v Hv. rewrite (Hstep k S S' v Ek Ek' Hv).
        pose proof (convex3 F (1 - 2 * F) F _ _ _ lo hi ltac:(lra) ltac:(lra) ltac:(lra) ltac:(ring) (IH ((v - 1) mod n) (mod_in n _ Hn)) (IH v Hv) (IH ((v + 1) mod n) (mod_in n _ Hn))) as Hx.
        split; [destruct Hx as [Hx _]|destruct Hx as [_ Hx]]; lra.
      + intros k S S' Ek Ek'.
        apply Qle_trans with (around n (fun v => (F * (val S ((v + 1) mod n) * val S ((v + 1) mod n))) + ((1 - 2 * F) * (val S v * val S v) + F * (val S ((v + (-1)) mod n) * val S ((v + (-1)) mod n)))))%Q.
        * apply around_le. intros v Hv. rewrite (Hstep k S S' v Ek Ek' Hv). change (v - 1) with (v + (-1)).
          set (r := val S ((v + 1) mod n)). set (l := val S ((v + (-1)) mod n)). set (u := val S v).
          assert (Hsq : forall q : Q, (0 <= q * q)%Q) by (intros q; nra).
          pose proof (Hsq (r - u)%Q). pose proof (Hsq (l - u)%Q). pose proof (Hsq (r - l)%Q).
          assert (H3 : (0 <= F * (1 - 2 * F))%Q) by nra. assert (H4 : (0 <= F * F)%Q) by nra.
          pose proof (Qmult_le_0_compat _ _ H3 H0). pose proof (Qmult_le_0_compat _ _ H3 H). pose proof (Qmult_le_0_compat _ _ H4 H1).
          assert (Eid : (F * (r * r) + ((1 - 2 * F) * (u * u) + F * (l * l)) - (u + F * (r - 2 * u + l)) * (u + F * (r - 2 * u + l)) ==
            F * (1 - 2 * F) * ((l - u) * (l - u)) + F * (1 - 2 * F) * ((r - u) * (r - u)) + F * F * ((r - l) * (r - l)))%Q) by ring.
          lra.
        * rewrite !around_add, !around_scale. rewrite (around_shift n 1 (fun w => val S w * val S w)%Q), (around_shift n (-1) (fun w => val S w * val S w)%Q) by lia.
          apply Qle_lteq. right. ring.
  Qed.

  Lemma spike_spec (W : env) n : 3 <= n -> config W n (fun _ => True) (CDict (spike n)) /\ in_bounds n 0 1 (spike n) /\ val (spike n) 0 = 1%Q /\ val (spike n) 1 = 0%Q /\ val (spike n) ((0 - 1) mod n) = 0%Q /\ val (spike n) ((0 + 1) mod n) = 0%Q /\ full n (spike n).
  Proof.
    intros Hn. assert (Hd : forall v, 0 <= v < n -> dget (spike n) v = Some (if v =? 0 then 1 else 0)%Q) by (intros v Hv; unfold spike; apply dget_table; apply in_zrange; assumption).
    assert (Hv : forall v, 0 <= v < n -> val (spike n) v = (if v =? 0 then 1 else 0)%Q) by (intros v Hvn; unfold val; rewrite (Hd v Hvn); reflexivity).
    split; [split; [cbn [to_dict]; unfold spike; rewrite map_length, length_zrange; lia|intros v Hvn; eexists; split; [apply Hd; assumption|exact Logic.I]]|].
    split; [intros v Hvn; eexists; split; [apply Hd; assumption|destruct (v =? 0); lra]|].
    split; [apply (Hv 0); lia|]. split; [apply (Hv 1); lia|].
    split; [rewrite Hv by (apply mod_in; assumption); replace ((0 - 1) mod n) with (n - 1) by (apply Z.mod_unique with (-1); lia); destruct (Z.eqb_spec (n - 1) 0); [lia|reflexivity]|].
    split; [rewrite Hv by (apply mod_in; assumption); rewrite Z.mod_small by lia; reflexivity|]. intros v Hvn. rewrite (Hd v Hvn), (Hv v Hvn). reflexivity.
  Qed.

  (** beyond 0 <= F <= 1/2 the bounds fail after a single timestep *)
  Theorem C93_diffusion_sharp : forall (W : env) fuel (u0 : U) n nu dt dx (g : args) (h : ctx -> res Q),
    3 <= n -> ~ (dx == 0)%Q -> (forall x, h x = diffusion_rule n nu dt dx x) \/ (forall x, h x = simple_diffusion_rule (nu * dt / (dx * dx)) x) ->
    static g (stateless h) -> (2 <= fuel)%nat -> let F := (nu * dt / (dx * dx))%Q in ~ (0 <= F <= 1 # 2)%Q ->
    exists c net S0 S1, config W n (fun _ => True) c /\ in_bounds n 0 1 (to_dict W c) /\ cellular_automaton n 1 true = Ok net /\ runs W fuel u0 net c 2 g [S0; S1] /\ ~ in_bounds n 0 1 S1.
  Proof.
    intros W fuel u0 n nu dt dx g h Hn Hdx Hh Hst Hf F HF. destruct (spike_spec W n Hn) as (Hc & Hb & V0 & V1 & Vl & Vr & Hfu).
    destruct (explicit_run W fuel u0 n (CDict (spike n)) 2 g h _ Hn Hst ltac:(lia) Hf Hc (diffusion_explicit n nu dt dx h Hn Hdx Hh)) as (net & hs & E & Hrun & Hz & Hfull & Hstep).
    cbv beta in Hstep. fold F in Hstep. assert (Hlen : length hs = 2%nat) by (destruct Hrun as (uf & traj & _ & Hl & _); lia).
    destruct hs as [|S0 [|S1 [|]]]; try discriminate. exists (CDict (spike n)), net, S0, S1. split; [assumption|]. split; [assumption|]. split; [assumption|]. split; [assumption|].
    injection Hz as ->. pose proof (Hstep 0%nat _ _ 0 eq_refl eq_refl ltac:(lia)) as Hs. cbn [to_dict] in Hs. rewrite V0, Vl, Vr in Hs.
    intros Hbad. destruct (Hbad 0 ltac:(lia)) as (a & Ea & Ba). unfold val in Hs. rewrite Ea in Hs. subst a. apply HF. lra.
  Qed.

  (** *** C93: linear convection *)
  Lemma convection_explicit n k dt dx : 3 <= n -> ~ (dx == 0)%Q ->
    forall (x : ctx) S v, 0 <= v < n -> x_label x = v -> x_cur x = val S v -> (forall w, 0 <= w < n -> activity_of x w = Ok (val S w)) ->
      x_nacts x = [val S ((v - 1) mod n); val S v; val S ((v + 1) mod n)] ->
      convection_rule n k dt dx x = Ok ((fun l u r => u - (k * dt / dx) * (u - l)) (val S ((v - 1) mod n)) (val S v) (val S ((v + 1) mod n)))%Q.
  Proof.
    intros Hn Hdx x S v Hv E1 E2 E3 E4. unfold convection_rule. rewrite E1, E2, !E3 by (apply mod_in; assumption). cbn [rbind]. rewrite qdiv_ok by assumption. reflexivity.
  Qed.

  Theorem C93_convection : forall (W : env) fuel (u0 : U) n kk dt dx c T (g : args),
    3 <= n -> ~ (dx == 0)%Q -> static g (stateless (convection_rule n kk dt dx)) -> 1 <= T -> (Z.to_nat T <= fuel)%nat -> config W n (fun _ => True) c ->
    let C := (kk * dt / dx)%Q in
    exists net hs, cellular_automaton n 1 true = Ok net /\ runs W fuel u0 net c T g hs /\
      (forall k S, nth_error hs k = Some S -> full n S /\ (around n (val S) == around n (val (to_dict W c)))%Q) /\
      (forall k S S' v, nth_error hs k = Some S -> nth_error hs (Datatypes.S k) = Some S' -> 0 <= v < n -> (val S' v - val S v == - (C * (val S v - val S ((v - 1) mod n))))%Q) /\
      ((0 <= C <= 1)%Q -> forall lo hi k S, in_bounds n lo hi (to_dict W c) -> nth_error hs k = Some S -> in_bounds n lo hi S) /\
      ((C == 1)%Q -> forall k S v, nth_error hs k = Some S -> 0 <= v < n -> (val S v == val (to_dict W c) ((v - Z.of_nat k) mod n))%Q).
  Proof.
    intros W fuel u0 n kk dt dx c T g Hn Hdx Hst HT Hf Hc C.
    destruct (explicit_run W fuel u0 n c T g _ _ Hn Hst HT Hf Hc (convection_explicit n kk dt dx Hn Hdx)) as (net & hs & E & Hrun & Hz & Hfull & Hstep).
    cbv beta in Hstep. fold C in Hstep. exists net, hs. split; [assumption|]. split; [assumption|]. split; [|split; [|split]].
    - intros k S Ek. split; [eapply full_nth; eassumption|]. revert k S Ek. apply (along hs (to_dict W c)); [assumption|reflexivity|].
      intros k S S' Ek Ek' IH. rewrite <- IH. rewrite (around_ext n (val S') (fun v => (1 - C) * val S v + C * val S ((v + (-1)) mod n))%Q).
      2:{ intros v Hv. rewrite (Hstep k S S' v Ek Ek' Hv). change (v - 1) with (v + (-1)). ring. }
      rewrite !around_add, !around_scale. rewrite (around_shift n (-1) (val S)) by lia. ring.
    - intros k S S' v Ek Ek' Hv. rewrite (Hstep k S S' v Ek Ek' Hv). ring.
    - intros HC lo hi k S Hb0. revert k S. apply (along hs (to_dict W c) (fun _ S => in_bounds n lo hi S)); [assumption|assumption|].
      intros k S S' Ek Ek' IH. pose proof (full_nth _ _ _ _ Hfull Ek) as HS. pose proof (full_nth _ _ _ _ Hfull Ek') as HS'.
      pose proof (proj1 (val_bounds n lo hi S HS) IH) as IHv. apply (proj2 (val_bounds n lo hi S' HS')). intros v Hv. rewrite (Hstep k S S' v Ek Ek' Hv).
      pose proof (convex3 C (1 - C) 0 _ _ _ lo hi ltac:(lra) ltac:(lra) ltac:(lra) ltac:(ring) (IHv ((v - 1) mod n) (mod_in n _ Hn)) (IHv v Hv) (IHv v Hv)) as Hx.
      split; [destruct Hx as [Hx _]|destruct Hx as [_ Hx]]; lra.
    - intros HC k S v Ek. revert k S Ek v. apply (along hs (to_dict W c) (fun k S => forall v, 0 <= v < n -> (val S v == val (to_dict W c) ((v - Z.of_nat k) mod n))%Q)); [assumption| |].
      + intros v Hv. rewrite Z.sub_0_r, Z.mod_small by assumption. reflexivity.
      + intros k S S' Ek Ek' IH v Hv. rewrite (Hstep k S S' v Ek Ek' Hv). rewrite HC. setoid_replace (val S v - 1 * (val S v - val S ((v - 1) mod n)))%Q with (val S ((v - 1) mod n))%Q by ring.
        rewrite IH by (apply mod_in; assumption). rewrite Zminus_mod_idemp_l. replace (v - 1 - Z.of_nat k) with (v - Z.of_nat (Datatypes.S k)) by lia. reflexivity.
  Qed.

  Theorem C93_convection_sharp : forall (W : env) fuel (u0 : U) n kk dt dx (g : args),
    3 <= n -> ~ (dx == 0)%Q -> static g (stateless (convection_rule n kk dt dx)) -> (2 <= fuel)%nat -> let C := (kk * dt / dx)%Q in ~ (0 <= C <= 1)%Q ->
    exists c net S0 S1, config W n (fun _ => True) c /\ in_bounds n 0 1 (to_dict W c) /\ cellular_automaton n 1 true = Ok net /\ runs W fuel u0 net c 2 g [S0; S1] /\ ~ in_bounds n 0 1 S1.
  Proof.
    intros W fuel u0 n kk dt dx g Hn Hdx Hst Hf C HC. destruct (spike_spec W n Hn) as (Hc & Hb & V0 & V1 & Vl & Vr & Hfu).
    destruct (explicit_run W fuel u0 n (CDict (spike n)) 2 g _ _ Hn Hst ltac:(lia) Hf Hc (convection_explicit n kk dt dx Hn Hdx)) as (net & hs & E & Hrun & Hz & Hfull & Hstep).
    cbv beta in Hstep. fold C in Hstep. assert (Hlen : length hs = 2%nat) by (destruct Hrun as (uf & traj & _ & Hl & _); lia).
    destruct hs as [|S0 [|S1 [|]]]; try discriminate. exists (CDict (spike n)), net, S0, S1. split; [assumption|]. split; [assumption|]. split; [assumption|]. split; [assumption|].
    injection Hz as ->. pose proof (Hstep 0%nat _ _ 0 eq_refl eq_refl ltac:(lia)) as Hs. cbn [to_dict] in Hs. rewrite V0, Vl in Hs.
    intros Hbad. destruct (Hbad 0 ltac:(lia)) as (a & Ea & Ba). unfold val in Hs. rewrite Ea in Hs. subst a. apply HC. lra.
  Qed.

  (** *** C93: nonlinear convection and Burgers' equation: nonnegative profiles keep their bounds below the CFL limit *)
  Lemma burgers_explicit n nu dt dx (h : ctx -> res Q) : 3 <= n -> ~ (dx == 0)%Q -> (forall x, h x = burgers_rule n nu dt dx x) \/ ((forall x, h x = nonlinear_convection_rule n dt dx x) /\ nu = 0%Q) ->
    forall (x : ctx) S v, 0 <= v < n -> x_label x = v -> x_cur x = val S v -> (forall w, 0 <= w < n -> activity_of x w = Ok (val S w)) ->
      x_nacts x = [val S ((v - 1) mod n); val S v; val S ((v + 1) mod n)] ->
      exists a, h x = Ok a /\ (a == val S v - val S v * dt / dx * (val S v - val S ((v - 1) mod n)) + nu * dt / (dx * dx) * (val S ((v + 1) mod n) - 2 * val S v + val S ((v - 1) mod n)))%Q.
  Proof.
    intros Hn Hdx Hh x S v Hv E1 E2 E3 E4. destruct Hh as [Hh|[Hh ->]]; rewrite Hh.
    - unfold burgers_rule. rewrite E1, E2, !E3 by (apply mod_in; assumption). cbn [rbind]. rewrite !qdiv_ok by (first [assumption|apply sq_ne0; assumption]). cbn [rbind]. eexists. split; reflexivity.
    - unfold nonlinear_convection_rule. rewrite E1, E2, !E3 by (apply mod_in; assumption). cbn [rbind]. rewrite !qdiv_ok by assumption. cbn [rbind]. eexists. split; [reflexivity|]. field. assumption.
  Qed.

  Theorem C93_burgers : forall (W : env) fuel (u0 : U) n nu dt dx c T (g : args) (h : ctx -> res Q) lo hi,
    3 <= n -> (0 < dx)%Q -> (0 <= dt)%Q -> (0 <= nu)%Q -> (forall x, h x = burgers_rule n nu dt dx x) \/ ((forall x, h x = nonlinear_convection_rule n dt dx x) /\ nu = 0%Q) ->
    static g (stateless h) -> 1 <= T -> (Z.to_nat T <= fuel)%nat -> Z.of_nat (length (to_dict W c)) = n -> in_bounds n lo hi (to_dict W c) ->
    (0 <= lo)%Q -> (hi * dt / dx + 2 * (nu * dt / (dx * dx)) <= 1)%Q ->
    exists net hs, cellular_automaton n 1 true = Ok net /\ runs W fuel u0 net c T g hs /\
      (forall k S, nth_error hs k = Some S -> in_bounds n lo hi S) /\
      (forall k S S' v, nth_error hs k = Some S -> nth_error hs (Datatypes.S k) = Some S' -> 0 <= v < n ->
        (val S' v - val S v == nu * dt / (dx * dx) * (val S ((v + 1) mod n) - 2 * val S v + val S ((v - 1) mod n)) - val S v * dt / dx * (val S v - val S ((v - 1) mod n)))%Q).
  Proof.
    intros W fuel u0 n nu dt dx c T g h lo hi Hn Hdx Hdt Hnu Hh Hst HT Hf Hl Hb Hlo HCFL.
    assert (Hdx0 : ~ (dx == 0)%Q) by lra. pose proof (burgers_explicit n nu dt dx h Hn Hdx0 Hh) as Hex.
    assert (Hc : config W n (fun _ => True) c) by (split; [assumption|intros v Hv; destruct (Hb v Hv) as (a & Ea & _); exists a; auto]).
    destruct (ring_run W fuel u0 n c T g h Hn Hst HT Hf Hc) as (net & hs & E & Hlat & Hrun & Hz & Hfull & Hsyn).
    { intros net hist S v x Hlat Hfull Hv Hx. apply Forall_app in Hfull. destruct Hfull as [_ HS]. apply Forall_inv in HS.
      destruct (ctx_values W net n S _ _ _ v x ltac:(lia) Hlat HS Hv Hx) as (E1 & E2 & E3 & E4 & _). destruct (Hex x S v Hv E1 E2 E3 E4) as (a & Ea & _). exists a. assumption. }
    assert (Hstep : forall k S S' v, nth_error hs k = Some S -> nth_error hs (Datatypes.S k) = Some S' -> 0 <= v < n ->
      (val S' v == val S v - val S v * dt / dx * (val S v - val S ((v - 1) mod n)) + nu * dt / (dx * dx) * (val S ((v + 1) mod n) - 2 * val S v + val S ((v - 1) mod n)))%Q).
    { intros k S S' v Ek Ek' Hv. pose proof (full_nth _ _ _ _ Hfull Ek) as HS. destruct (Hsyn k S S' Ek Ek') as [_ Hu].
      destruct (Hu v) as (x & a & a' & Hx & Ea & Eq & Ed); [destruct Hlat as (_ & Hnodes & _); apply Hnodes; assumption|].
      destruct (ctx_values W net n S _ _ _ v x ltac:(lia) Hlat HS Hv Hx) as (E1 & E2 & E3 & E4 & _). destruct (Hex x S v Hv E1 E2 E3 E4) as (b & Eb & Hbq).
      subst a'. unfold val at 1. rewrite Ed. rewrite Ea in Eb. injection Eb as <-. assumption. }
    exists net, hs. split; [assumption|]. split; [assumption|]. split.
    - apply (along hs (to_dict W c) (fun _ S => in_bounds n lo hi S)); [assumption|assumption|].
      intros k S S' Ek Ek' IH. pose proof (full_nth _ _ _ _ Hfull Ek) as HS. pose proof (full_nth _ _ _ _ Hfull Ek') as HS'.
      pose proof (proj1 (val_bounds n lo hi S HS) IH) as IHv. apply (proj2 (val_bounds n lo hi S' HS')). intros v Hv.
      pose proof (Hstep k S S' v Ek Ek' Hv) as Hs.
      pose proof (IHv v Hv) as Bu. pose proof (IHv ((v - 1) mod n) (mod_in n _ Hn)) as Bl. pose proof (IHv ((v + 1) mod n) (mod_in n _ Hn)) as Br.
      set (u := val S v) in *. set (l := val S ((v - 1) mod n)) in *. set (r := val S ((v + 1) mod n)) in *.
      set (s := (dt / dx)%Q). set (F := (nu * dt / (dx * dx))%Q) in *.
      assert (Hs0 : (0 <= s)%Q) by (apply Qle_shift_div_l; lra).
      assert (HF0 : (0 <= F)%Q) by (apply Qle_shift_div_l; nra).
      assert (E1 : (u * dt / dx == u * s)%Q) by (unfold s; field; assumption). assert (E2 : (hi * dt / dx == hi * s)%Q) by (unfold s; field; assumption).
      rewrite E1 in Hs. rewrite E2 in HCFL.
      assert (Hus : (0 <= u * s <= hi * s)%Q) by nra.
      pose proof (convex3 (u * s + F) (1 - u * s - 2 * F) F l u r lo hi ltac:(lra) ltac:(lra) HF0 ltac:(ring) Bl Bu Br) as Hx.
      assert (Eid : (val S' v == (u * s + F) * l + (1 - u * s - 2 * F) * u + F * r)%Q) by (rewrite Hs; ring). rewrite Eid. assumption.
    - intros k S S' v Ek Ek' Hv. rewrite (Hstep k S S' v Ek Ek' Hv). ring.
  Qed.
End Theorems.

(** ** C94: the wave equation and the spring *)

(** the difference to the next cell *)
Definition slope (n : Z) (u : Z -> Q) (v : Z) : Q := (u ((v + 1) mod n) - u v)%Q.
(** kinetic plus potential energy of two consecutive states, [r2] = dt^2 / dx^2 *)
Definition wave_energy (n : Z) (r2 : Q) (a b : Z -> Q) : Q :=
  (around n (fun v => (b v - a v) * (b v - a v)) + r2 * around n (fun v => slope n b v * slope n a v))%Q.

Lemma back_forth n v : 3 <= n -> 0 <= v < n -> ((v + 1) mod n - 1) mod n = v.
Proof. intros Hn Hv. rewrite Zminus_mod_idemp_l. replace (v + 1 - 1) with v by lia. apply Z.mod_small. assumption. Qed.

Lemma by_parts n (f w : Z -> Q) : 3 <= n ->
  (around n (fun v => slope n f v * slope n w v) == - around n (fun v => w v * (f ((v + 1) mod n) - 2 * f v + f ((v - 1) mod n))))%Q.
Proof.
  intros Hn. unfold slope.
  rewrite (around_ext n _ (fun v => f ((v + 1) mod n) * w ((v + 1) mod n) + (f v * w v + ((-1) * (w v * f ((v + 1) mod n)) + (-1) * (f v * w ((v + 1) mod n)))))%Q) by (intros; ring).
  rewrite (around_ext n (fun v => w v * _)%Q (fun v => w v * f ((v + 1) mod n) + ((-2) * (f v * w v) + f ((v - 1) mod n) * w v))%Q) by (intros; ring).
  rewrite !around_add, !around_scale. rewrite (around_shift n 1 (fun x => f x * w x)%Q) by lia.
  rewrite <- (around_shift n 1 (fun x => f ((x - 1) mod n) * w x)%Q) by lia.
  rewrite (around_ext n (fun v => f (((v + 1) mod n - 1) mod n) * w ((v + 1) mod n))%Q (fun v => f v * w ((v + 1) mod n))%Q) by (intros v Hv; rewrite back_forth by assumption; reflexivity).
  ring.
Qed.

Lemma energy_step n r2 (a b c : Z -> Q) : 3 <= n ->
  (forall v, 0 <= v < n -> (c v - 2 * b v + a v == r2 * (b ((v + 1) mod n) - 2 * b v + b ((v - 1) mod n)))%Q) -> (wave_energy n r2 b c == wave_energy n r2 a b)%Q.
Proof.
  intros Hn Hw. unfold wave_energy.
  assert (E1 : (around n (fun v => (c v - b v) * (c v - b v)) == around n (fun v => (b v - a v) * (b v - a v)) + r2 * around n (fun v => (c v - a v) * (b ((v + 1) mod n) - 2 * b v + b ((v - 1) mod n))))%Q).
  { rewrite <- around_scale, <- around_add. apply around_ext. intros v Hv. pose proof (Hw v Hv) as E.
    setoid_replace (r2 * ((c v - a v) * (b ((v + 1) mod n) - 2 * b v + b ((v - 1) mod n))))%Q with ((c v - a v) * (c v - 2 * b v + a v))%Q by (rewrite E; ring). ring. }
  assert (E2 : (around n (fun v => slope n c v * slope n b v) == around n (fun v => slope n b v * slope n a v) + around n (fun v => slope n b v * slope n (fun x => c x - a x) v))%Q).
  { rewrite <- around_add. apply around_ext. intros v Hv. unfold slope. ring. }
  rewrite E1, E2. rewrite (by_parts n b (fun x => c x - a x)%Q Hn). ring.
Qed.

Lemma energy_below n r2 (a b : Z -> Q) : 3 <= n -> (0 <= r2)%Q -> ((1 - r2) * around n (fun v => (b v - a v) * (b v - a v)) <= wave_energy n r2 a b)%Q.
Proof.
  intros Hn Hr. unfold wave_energy.
  assert (Hs : (- around n (fun v => (b v - a v) * (b v - a v)) <= around n (fun v => slope n b v * slope n a v))%Q).
  { setoid_replace (- around n (fun v => (b v - a v) * (b v - a v)))%Q with (around n (fun v => (- (1 # 2)) * ((b v - a v) * (b v - a v)) + (- (1 # 2)) * ((b ((v + 1) mod n) - a ((v + 1) mod n)) * (b ((v + 1) mod n) - a ((v + 1) mod n)))))%Q.
    2:{ rewrite around_add, !around_scale. rewrite (around_shift n 1 (fun x => (b x - a x) * (b x - a x))%Q) by lia. ring. }
    apply around_le. intros v Hv. unfold slope. set (p := b ((v + 1) mod n)). set (q := a ((v + 1) mod n)). set (x := b v). set (y := a v).
    assert (Hsq : forall z : Q, (0 <= z * z)%Q) by (intros z; nra). pose proof (Hsq (p - x + (q - y))%Q). pose proof (Hsq ((p - q) + (x - y))%Q). nra. }
  pose proof (Qmult_le_l). assert (H' : (r2 * - around n (fun v => (b v - a v) * (b v - a v)) <= r2 * around n (fun v => slope n b v * slope n a v))%Q) by (rewrite (Qmult_comm r2), (Qmult_comm r2); apply Qmult_le_compat_r; assumption).
  lra.
Qed.

Lemma energy_still n r2 (a : Z -> Q) : (wave_energy n r2 a a == r2 * around n (fun v => slope n a v * slope n a v))%Q.
Proof. unfold wave_energy. rewrite (around_ext n (fun v => (a v - a v) * (a v - a v))%Q (fun v => 0 * a v)%Q) by (intros; ring). rewrite around_scale. ring. Qed.

Section Wave.
  Context {U I BA BN : Type}.
  Notation env := (env Z Z Q BA BN).
  Notation ctx := (node_ctx Z Z Q I).
  Notation args := (@args Z Z Q U I).

  (** three consecutive states, the past condition being the state before the first *)
  Definition consecutive {X} (l : list X) (k : nat) (a b c : X) : Prop := nth_error l k = Some a /\ nth_error l (Datatypes.S k) = Some b /\ nth_error l (Datatypes.S (Datatypes.S k)) = Some c.
  Definition obeys (n : Z) (r2 : Q) (l : list (dict Z Q)) : Prop := forall k A B C, consecutive l k A B C -> forall v, 0 <= v < n ->
    (val C v - 2 * val B v + val A v == r2 * (val B ((v + 1) mod n) - 2 * val B v + val B ((v - 1) mod n)))%Q.

  Lemma past_one (W : env) p hist (S : dict Z Q) n : 3 <= n -> Forall (full n) hist ->
    exists d, past_of W [p] (hist ++ [S]) = Some [Some d] /\ nth_error (to_dict W p :: hist ++ [S]) (length hist) = Some d.
  Proof.
    intros Hn Hf. unfold past_of. rewrite app_length, removelast_last. cbn [length map app]. replace (length hist + 1 - 1)%nat with (length hist) by lia.
    destruct (exists_last (l := to_dict W p :: hist) ltac:(discriminate)) as (l & d & E).
    assert (Hlen : length l = length hist) by (apply (f_equal (@length _)) in E; rewrite app_length in E; cbn [length] in E; lia).
    exists d. change (to_dict W p :: hist ++ [S]) with ((to_dict W p :: hist) ++ [S]). rewrite E. split.
    - f_equal. assert (Em : Some (to_dict W p) :: map shown_acts hist = map Some (to_dict W p :: hist)).
      { cbn [map]. f_equal. apply map_ext_in. intros x Hx. rewrite Forall_forall in Hf. specialize (Hf x Hx 0 ltac:(lia)). destruct x; [discriminate|reflexivity]. }
      rewrite Em, E, map_app. cbn [map]. rewrite <- Hlen, <- (map_length Some l). rewrite skipn_app, skipn_all, Nat.sub_diag. reflexivity.
    - rewrite <- app_assoc. rewrite <- Hlen. rewrite nth_error_app2, Nat.sub_diag by lia. reflexivity.
  Qed.

  Lemma wave_run (W : env) fuel (u0 : U) n dt dx c p T (g : args) : 3 <= n -> ~ (dx == 0)%Q -> static g (stateless (wave_rule n dt dx)) -> g_past g = [p] -> 1 <= T -> (Z.to_nat T <= fuel)%nat ->
    config W n (fun _ => True) c -> config W n (fun _ => True) p ->
    exists net hs, cellular_automaton n 1 true = Ok net /\ runs W fuel u0 net c T g hs /\ nth_error hs 0 = Some (to_dict W c) /\ Forall (full n) (to_dict W p :: hs) /\ obeys n (dt * dt / (dx * dx)) (to_dict W p :: hs).
  Proof.
    intros Hn Hdx Hst Hp HT Hf Hc Hcp. pose proof (sq_ne0 dx Hdx) as Hdx2.
    assert (Hfp : full n (to_dict W p)) by (apply val_full; intros v Hv; destruct (proj2 Hcp v Hv) as (a & Ea & _); exists a; assumption).
    assert (Hrule : forall net hist S v (x : ctx), lattice net n (ring_nb n 1) -> Forall (full n) (hist ++ [S]) -> 0 <= v < n ->
       ctx_for W net S (Z.of_nat (length hist) + 1) (past_of W (g_past g) (hist ++ [S])) (InStr "__timestep__") v x ->
       exists d, nth_error (to_dict W p :: hist ++ [S]) (length hist) = Some d /\
         wave_rule n dt dx x = Ok (dt * dt * (val S ((v + 1) mod n) - 2 * val S v + val S ((v - 1) mod n)) / (dx * dx) + (2 * val S v - val d v))%Q).
    { intros net hist S v x Hlat Hfull Hv Hx. apply Forall_app in Hfull. destruct Hfull as [Hh HS]. apply Forall_inv in HS. rewrite Hp in Hx.
      destruct (past_one W p hist S n Hn Hh) as (d & Ed & En). rewrite Ed in Hx.
      destruct (ctx_values W net n S _ _ _ v x ltac:(lia) Hlat HS Hv Hx) as (E1 & E2 & E3 & _ & E5). exists d. split; [assumption|].
      assert (Hfd : full n d). { assert (Hin : In d (to_dict W p :: hist)) by (apply (nth_error_In _ (length hist)); change (to_dict W p :: hist ++ [S]) with ((to_dict W p :: hist) ++ [S]) in En; rewrite nth_error_app1 in En by (cbn [length]; lia); exact En).
        destruct Hin as [<-|Hin]; [assumption|]. rewrite Forall_forall in Hh. apply Hh. assumption. }
      unfold wave_rule. rewrite E1, E2, !E3 by (apply mod_in; assumption). cbn [rbind]. unfold past_activity_of. rewrite E5. cbn [of_opt rbind py_nth py_index length].
      change (py_nth [Some d] (-1)) with (Some (Some d)). cbn [of_opt rbind]. rewrite (Hfd v Hv). cbn [of_opt rbind]. rewrite qdiv_ok by assumption. reflexivity. }
    destruct (ring_run W fuel u0 n c T g _ Hn Hst HT Hf Hc) as (net & hs & E & Hlat & Hrun & Hz & Hfull & Hsyn).
    { intros net hist S v x Hlat Hfull Hv Hx. destruct (Hrule net hist S v x Hlat Hfull Hv Hx) as (d & _ & Ea). eexists. exact Ea. }
    exists net, hs. split; [assumption|]. split; [assumption|]. split; [assumption|]. split; [constructor; assumption|].
    intros k A B C (EA & EB & EC) v Hv. cbn [nth_error] in EB, EC.
    destruct (Hsyn k B C EB EC) as [_ Hu]. destruct (Hu v) as (x & a & a' & Hx & Ea & Eq & Ed); [destruct Hlat as (_ & Hnodes & _); apply Hnodes; assumption|].
    assert (Efst : firstn (Datatypes.S k) hs = firstn k hs ++ [B]).
    { clear - EB. revert k EB. induction hs as [|y l IH]; intros [|k] EB; try discriminate; [injection EB as ->; reflexivity|]. cbn [nth_error] in EB. cbn [firstn app]. f_equal. apply IH. assumption. }
    assert (Hk : length (firstn k hs) = k) by (rewrite firstn_length; assert (Hlt : (k < length hs)%nat) by (apply nth_error_Some; congruence); lia).
    rewrite Efst in Hx. rewrite <- Hk in Hx at 1. destruct (Hrule net (firstn k hs) B v x Hlat) as (d & End & Eval).
    - rewrite <- Efst. apply Forall_forall. intros y Hy. rewrite Forall_forall in Hfull. apply Hfull. rewrite <- (firstn_skipn (Datatypes.S k) hs). apply in_or_app. left. assumption.
    - assumption.
    - exact Hx.
    - rewrite Hk in End. assert (d = A).
      { enough (nth_error (to_dict W p :: firstn k hs ++ [B]) k = nth_error (to_dict W p :: hs) k) by congruence.
        destruct k as [|k]; [reflexivity|]. cbn [nth_error]. rewrite nth_error_app1 by lia. clear - EA. rewrite <- (firstn_skipn (Datatypes.S k) hs) at 2.
        destruct (lt_dec k (length (firstn (Datatypes.S k) hs))) as [Hl|Hl]; [rewrite nth_error_app1 by assumption; reflexivity|].
        exfalso. apply Hl. rewrite firstn_length. assert (k < length hs)%nat by (apply nth_error_Some; cbn [nth_error] in EA; congruence). lia. }
      subst d. subst a'. rewrite Eval in Ea. injection Ea as <-. unfold val at 1. rewrite Ed. field. assumption.
  Qed.

  Lemma second_order {X} (l : list X) a0 b0 (P : nat -> X -> X -> Prop) : nth_error l 0 = Some a0 -> nth_error l 1 = Some b0 -> P 0%nat a0 b0 ->
    (forall k A B C, consecutive l k A B C -> P k A B -> P (Datatypes.S k) B C) -> forall k A B, nth_error l k = Some A -> nth_error l (Datatypes.S k) = Some B -> P k A B.
  Proof.
    intros E0 E1 HP Hs. induction k as [|k IH]; intros A B EA EB; [congruence|].
    destruct (nth_error l k) as [A0|] eqn:E; [|exfalso; apply nth_error_None in E; assert (nth_error l (Datatypes.S k) <> None) as Hne by congruence; apply nth_error_Some in Hne; lia].
    apply (Hs k A0 A B); [split; auto|]. apply IH; [reflexivity|assumption].
  Qed.

  (** C94: the run solves the difference equation, keeps the momentum and the energy, and for dt < dx its changes stay bounded *)
  Theorem C94_wave : forall (W : env) fuel (u0 : U) n dt dx c p T (g : args),
    3 <= n -> ~ (dx == 0)%Q -> static g (stateless (wave_rule n dt dx)) -> g_past g = [p] -> 1 <= T -> (Z.to_nat T <= fuel)%nat ->
    config W n (fun _ => True) c -> config W n (fun _ => True) p ->
    let r2 := (dt * dt / (dx * dx))%Q in let before := to_dict W p in let start := to_dict W c in
    exists net hs, cellular_automaton n 1 true = Ok net /\ runs W fuel u0 net c T g hs /\ obeys n r2 (before :: hs) /\
      forall k A B, nth_error (before :: hs) k = Some A -> nth_error (before :: hs) (Datatypes.S k) = Some B -> full n A /\ full n B /\
        (around n (val B) - around n (val A) == around n (val start) - around n (val before))%Q /\
        (wave_energy n r2 (val A) (val B) == wave_energy n r2 (val before) (val start))%Q /\
        ((1 - r2) * around n (fun v => (val B v - val A v) * (val B v - val A v)) <= wave_energy n r2 (val before) (val start))%Q.
  Proof.
    intros W fuel u0 n dt dx c p T g Hn Hdx Hst Hp HT Hf Hc Hcp r2 before start.
    destruct (wave_run W fuel u0 n dt dx c p T g Hn Hdx Hst Hp HT Hf Hc Hcp) as (net & hs & E & Hrun & Hz & Hfull & Hob). fold r2 in Hob. fold before in Hob, Hfull.
    exists net, hs. split; [assumption|]. split; [assumption|]. split; [assumption|]. intros k A B EA EB.
    split; [eapply full_nth; [exact Hfull|exact EA]|]. split; [eapply full_nth; [exact Hfull|exact EB]|].
    assert (Hmain : (around n (val B) - around n (val A) == around n (val start) - around n (val before))%Q /\ (wave_energy n r2 (val A) (val B) == wave_energy n r2 (val before) (val start))%Q).
    { revert k A B EA EB. apply (second_order (before :: hs) before start (fun _ A B => (around n (val B) - around n (val A) == around n (val start) - around n (val before))%Q /\ (wave_energy n r2 (val A) (val B) == wave_energy n r2 (val before) (val start))%Q)).
      - reflexivity.
      - exact Hz.
      - split; reflexivity.
      - intros k A B C Hcons [IH1 IH2]. pose proof (Hob k A B C Hcons) as Hw. split.
        + rewrite <- IH1. assert (Es : (around n (fun v => val C v - 2 * val B v + val A v) == 0)%Q).
          { rewrite (around_ext n _ (fun v => r2 * val B ((v + 1) mod n) + ((-2 * r2) * val B v + r2 * val B ((v + (-1)) mod n)))%Q) by (intros v Hv; rewrite (Hw v Hv); change (v - 1) with (v + (-1)); ring).
            rewrite !around_add, !around_scale. rewrite (around_shift n 1 (val B)), (around_shift n (-1) (val B)) by lia. ring. }
          rewrite (around_ext n _ (fun v => val C v + ((-2) * val B v + val A v))%Q) in Es by (intros; ring). rewrite !around_add, around_scale in Es. lra.
        + rewrite <- IH2. apply energy_step; assumption. }
    destruct Hmain as [H1 H2]. split; [assumption|]. split; [assumption|]. rewrite <- H2. apply energy_below; [assumption|].
    unfold r2. apply Qle_shift_div_l; [|nra]. assert (Hd : (0 <= dx * dx)%Q) by nra. apply Qle_lteq in Hd. destruct Hd as [Hd|Hd]; [assumption|]. exfalso. symmetry in Hd. exact (sq_ne0 dx Hdx Hd).
  Qed.

  (** started at rest, as in the demo (the past condition is the initial condition) *)
  Theorem C94_wave_at_rest : forall (W : env) fuel (u0 : U) n dt dx c T (g : args),
    3 <= n -> ~ (dx == 0)%Q -> static g (stateless (wave_rule n dt dx)) -> g_past g = [c] -> 1 <= T -> (Z.to_nat T <= fuel)%nat -> config W n (fun _ => True) c ->
    let r2 := (dt * dt / (dx * dx))%Q in let start := to_dict W c in
    exists net hs, cellular_automaton n 1 true = Ok net /\ runs W fuel u0 net c T g hs /\
      forall k S, nth_error hs k = Some S -> (around n (val S) == around n (val start))%Q /\
        forall S', nth_error hs (Datatypes.S k) = Some S' ->
          ((1 - r2) * around n (fun v => (val S' v - val S v) * (val S' v - val S v)) <= r2 * around n (fun v => slope n (val start) v * slope n (val start) v))%Q.
  Proof.
    intros W fuel u0 n dt dx c T g Hn Hdx Hst Hp HT Hf Hc r2 start.
    destruct (C94_wave W fuel u0 n dt dx c c T g Hn Hdx Hst Hp HT Hf Hc Hc) as (net & hs & E & Hrun & _ & Hk). fold r2 start in Hk.
    exists net, hs. split; [assumption|]. split; [assumption|]. intros k S EkS. split.
    - assert (Hall : forall k S, nth_error (start :: hs) k = Some S -> (around n (val S) == around n (val start))%Q).
      { apply (along (start :: hs) start (fun _ S => (around n (val S) == around n (val start))%Q)); [reflexivity|reflexivity|].
        intros j A B EA EB IH. destruct (Hk j A B EA EB) as (_ & _ & H1 & _). lra. }
      apply (Hall (Datatypes.S k)). exact EkS.
    - intros S' EkS'. destruct (Hk (Datatypes.S k) S S' EkS EkS') as (_ & _ & _ & _ & H3). rewrite <- (energy_still n r2 (val start)). exact H3.
  Qed.

  (** C94: started from two consecutive states in reverse order, the rule runs the history backwards *)
  Theorem C94_wave_reversible : forall (W : env) fuel (u0 u0' : U) n dt dx c p T c' p' T' (g g' : args) k,
    3 <= n -> ~ (dx == 0)%Q -> static g (stateless (wave_rule n dt dx)) -> g_past g = [p] -> 1 <= T -> (Z.to_nat T <= fuel)%nat -> config W n (fun _ => True) c -> config W n (fun _ => True) p ->
    static g' (stateless (wave_rule n dt dx)) -> g_past g' = [p'] -> 1 <= T' -> (Z.to_nat T' <= fuel)%nat -> config W n (fun _ => True) c' -> config W n (fun _ => True) p' ->
    exists net hs hs', cellular_automaton n 1 true = Ok net /\ runs W fuel u0 net c T g hs /\ runs W fuel u0' net c' T' g' hs' /\
      ((exists A B, nth_error (to_dict W p :: hs) k = Some A /\ nth_error (to_dict W p :: hs) (Datatypes.S k) = Some B /\
         forall v, 0 <= v < n -> (val (to_dict W c') v == val A v)%Q /\ (val (to_dict W p') v == val B v)%Q) ->
       forall j S' S v, (j <= k)%nat -> nth_error hs' j = Some S' -> nth_error (to_dict W p :: hs) (k - j) = Some S -> 0 <= v < n -> (val S' v == val S v)%Q).
  Proof.
    intros W fuel u0 u0' n dt dx c p T c' p' T' g g' k Hn Hdx Hst Hp HT Hf Hc Hcp Hst' Hp' HT' Hf' Hc' Hcp'.
    destruct (wave_run W fuel u0 n dt dx c p T g Hn Hdx Hst Hp HT Hf Hc Hcp) as (net & hs & E & Hrun & Hz & Hfull & Hob).
    destruct (wave_run W fuel u0' n dt dx c' p' T' g' Hn Hdx Hst' Hp' HT' Hf' Hc' Hcp') as (net' & hs' & E' & Hrun' & Hz' & Hfull' & Hob').
    assert (net' = net) by congruence. subst net'. exists net, hs, hs'. split; [assumption|]. split; [assumption|]. split; [assumption|].
    intros (A & B & EA & EB & Hst0). set (l := to_dict W p :: hs) in *. set (l' := to_dict W p' :: hs') in *.
    assert (Hback : forall j X Y, nth_error l' j = Some X -> nth_error l' (Datatypes.S j) = Some Y -> (j <= k)%nat ->
      forall X0 Y0, nth_error l (Datatypes.S k - j) = Some X0 -> nth_error l (k - j) = Some Y0 -> forall v, 0 <= v < n -> (val X v == val X0 v)%Q /\ (val Y v == val Y0 v)%Q).
    { apply (second_order l' (to_dict W p') (to_dict W c') (fun j X Y => (j <= k)%nat -> forall X0 Y0, nth_error l (Datatypes.S k - j) = Some X0 -> nth_error l (k - j) = Some Y0 -> forall v, 0 <= v < n -> (val X v == val X0 v)%Q /\ (val Y v == val Y0 v)%Q)).
      - reflexivity.
      - exact Hz'.
      - intros _ X0 Y0 EX EY v Hv. rewrite Nat.sub_0_r in EX, EY. destruct (Hst0 v Hv). assert (X0 = B) by congruence. assert (Y0 = A) by congruence. subst X0 Y0. split; assumption.
      - intros j X Y Z0 Hcons IH Hj X0 Y0 EX EY v Hv. replace (Datatypes.S k - Datatypes.S j)%nat with (k - j)%nat in EX by lia.
        destruct (nth_error l (Datatypes.S k - j)) as [W0|] eqn:EW.
        2:{ exfalso. apply nth_error_None in EW. assert (Hlt : (Datatypes.S k < length l)%nat) by (apply nth_error_Some; congruence). lia. }
        assert (IHj := IH ltac:(lia) W0 X0 eq_refl EX). split; [apply (IHj v Hv)|].
        assert (Hc3 : consecutive l (k - Datatypes.S j) Y0 X0 W0) by (split; [assumption|split; [replace (Datatypes.S (k - Datatypes.S j)) with (k - j)%nat by lia; assumption|replace (Datatypes.S (Datatypes.S (k - Datatypes.S j))) with (Datatypes.S k - j)%nat by lia; assumption]]).
        pose proof (Hob _ _ _ _ Hc3 v Hv) as E1. pose proof (Hob' _ _ _ _ Hcons v Hv) as E2.
        destruct (IHj v Hv) as [Ia Ib]. destruct (IHj ((v + 1) mod n) (mod_in n _ Hn)) as [_ Ic]. destruct (IHj ((v - 1) mod n) (mod_in n _ Hn)) as [_ Id].
        rewrite Ia, Ib, Ic, Id in E2. lra. }
    intros j S' S v Hj ES' ES Hv. destruct (nth_error l' j) as [X|] eqn:EX.
    2:{ exfalso. apply nth_error_None in EX. assert (Hlt : (j < length hs')%nat) by (apply nth_error_Some; congruence). unfold l' in EX. cbn [length] in EX. lia. }
    destruct (nth_error l (Datatypes.S k - j)) as [X0|] eqn:EX0.
    2:{ exfalso. apply nth_error_None in EX0. assert (Hlt : (Datatypes.S k < length l)%nat) by (apply nth_error_Some; congruence). lia. }
    destruct (Hback j X S' EX ES' Hj X0 S EX0 ES v Hv) as [_ Hx]. exact Hx.
  Qed.

  (** the checkerboard *)
  Definition board (n : Z) : dict Z Q := map (fun v => (v, if Z.even v then 1 else -1)%Q) (zrange 0 n).

  Lemma even_mod n v : 0 < n -> Z.even n = true -> Z.even (v mod n) = Z.even v.
  Proof. intros Hn He. rewrite (Z.div_mod v n) at 2 by lia. rewrite Z.even_add, Z.even_mul, He. cbn [orb]. destruct (Z.even (v mod n)); reflexivity. Qed.

  (** C94: for dt >= dx, on a ring of even size, the bound fails: the checkerboard grows without limit *)
  Theorem C94_wave_unstable : forall (W : env) fuel (u0 : U) n dt dx T (g : args),
    3 <= n -> Z.even n = true -> ~ (dx == 0)%Q -> (1 <= dt * dt / (dx * dx))%Q -> static g (stateless (wave_rule n dt dx)) -> g_past g = [CDict (board n)] -> 1 <= T -> (Z.to_nat T <= fuel)%nat ->
    exists net hs, cellular_automaton n 1 true = Ok net /\ runs W fuel u0 net (CDict (board n)) T g hs /\ in_bounds n (-1) 1 (board n) /\
      forall k S, nth_error hs k = Some S -> (2 * inject_Z (Z.of_nat k) + 1 <= val S 0 \/ val S 0 <= - (2 * inject_Z (Z.of_nat k) + 1))%Q.
  Proof.
    intros W fuel u0 n dt dx T g Hn He Hdx Hr Hst Hp HT Hf. set (r2 := (dt * dt / (dx * dx))%Q) in *. set (sg := fun v => if Z.even v then 1%Q else (-1)%Q).
    assert (Hd : forall v, 0 <= v < n -> dget (board n) v = Some (sg v)) by (intros v Hv; unfold board; apply (dget_table sg); apply in_zrange; assumption).
    assert (Hc : config W n (fun _ => True) (CDict (board n))).
    { split; [cbn [to_dict]; unfold board; rewrite map_length, length_zrange; lia|]. intros v Hv. exists (sg v). split; [apply Hd; assumption|exact Logic.I]. }
    destruct (wave_run W fuel u0 n dt dx _ _ T g Hn Hdx Hst Hp HT Hf Hc Hc) as (net & hs & E & Hrun & Hz & Hfull & Hob). fold r2 in Hob. cbn [to_dict] in *.
    exists net, hs. split; [assumption|]. split; [assumption|].
    split; [intros v Hv; exists (sg v); split; [apply Hd; assumption|unfold sg; destruct (Z.even v); lra]|].
    assert (Hsg : forall v, 0 <= v < n -> (sg ((v + 1) mod n) == - sg v)%Q /\ (sg ((v - 1) mod n) == - sg v)%Q).
    { intros v Hv. unfold sg. rewrite !even_mod by (assumption || lia). rewrite Z.even_add, Z.even_sub. destruct (Z.even v); split; reflexivity. }
    assert (Hmain : forall k A B, nth_error (board n :: hs) k = Some A -> nth_error (board n :: hs) (Datatypes.S k) = Some B ->
      exists a b, (forall v, 0 <= v < n -> (val A v == a * sg v)%Q /\ (val B v == b * sg v)%Q) /\
        let kk := inject_Z (Z.of_nat k) in ((2 * kk + 1 <= b /\ 2 <= b + a) \/ (2 * kk + 1 <= - b /\ 2 <= - b - a))%Q).
    { apply (second_order (board n :: hs) (board n) (board n) (fun k A B => exists a b, (forall v, 0 <= v < n -> (val A v == a * sg v)%Q /\ (val B v == b * sg v)%Q) /\
        let kk := inject_Z (Z.of_nat k) in ((2 * kk + 1 <= b /\ 2 <= b + a) \/ (2 * kk + 1 <= - b /\ 2 <= - b - a))%Q)).
      - reflexivity.
      - exact Hz.
      - exists 1%Q, 1%Q. split; [|left; change (inject_Z (Z.of_nat 0)) with 0%Q; split; lra]. intros v Hv. unfold val. rewrite (Hd v Hv). split; ring.
      - intros k A B C Hcons (a & b & Hab & Hk). cbv zeta in Hk. exists b, ((2 - 4 * r2) * b - a)%Q. split.
        + intros v Hv. destruct (Hab v Hv) as [Ia Ib]. split; [assumption|]. pose proof (Hob k A B C Hcons v Hv) as Hw.
          destruct (Hab ((v + 1) mod n) (mod_in n _ Hn)) as [_ Ic]. destruct (Hab ((v - 1) mod n) (mod_in n _ Hn)) as [_ Id]. destruct (Hsg v Hv) as [S1 S2].
          rewrite S1 in Ic. rewrite S2 in Id. rewrite Ia, Ib, Ic, Id in Hw.
          setoid_replace (val C v) with (2 * (b * sg v) - a * sg v + (val C v - 2 * (b * sg v) + a * sg v))%Q by ring. rewrite Hw. ring.
        + cbv zeta. assert (Ek : (inject_Z (Z.of_nat (Datatypes.S k)) == inject_Z (Z.of_nat k) + 1)%Q) by (rewrite Nat2Z.inj_succ; unfold Z.succ; rewrite inject_Z_plus; reflexivity).
          assert (Hk0 : (0 <= inject_Z (Z.of_nat k))%Q) by (change 0%Q with (inject_Z 0); rewrite <- Zle_Qle; lia). rewrite Ek.
          destruct Hk as [[K1 K2]|[K1 K2]]; [right|left]; split; nra. }
    intros k S ES. destruct (nth_error (board n :: hs) k) as [A|] eqn:EA.
    2:{ exfalso. apply nth_error_None in EA. assert (Hlt : (k < length hs)%nat) by (apply nth_error_Some; congruence). cbn [length] in EA. lia. }
    destruct (Hmain k A S EA ES) as (a & b & Hab & Hk). destruct (Hab 0 ltac:(lia)) as [_ Hb]. change (sg 0) with 1%Q in Hb. destruct Hk as [[K _]|[K _]]; [left|right]; lra.
  Qed.
End Wave.

(** *** the spring *)
Section Spring.
  Context {U I BA BN : Type}.
  Notation env := (env Z Z (Q * Q) BA BN).
  Notation args := (@args Z Z (Q * Q) U I).

  (** what the rule keeps: 6 x^2 + v^2 + 6 dt x v *)
  Definition spring_form (dt : Q) (s : Q * Q) : Q := (6 * (fst s * fst s) + snd s * snd s + 6 * dt * (fst s * snd s))%Q.

  (** C94: the quadratic form never changes, so for 3 dt^2 < 2 position and velocity stay bounded *)
  Theorem C94_spring : forall (W : env) fuel (u0 : U) dt x0 v0 c T (g : args),
    static g (stateless (spring_rule dt)) -> 1 <= T -> (Z.to_nat T <= fuel)%nat -> to_dict W c = [(0, (x0, v0))] ->
    exists l : list (Q * Q), runs W fuel u0 one_node c T g (map (fun s => [(0, s)]) l) /\
      forall k s, nth_error l k = Some s ->
        (spring_form dt s == spring_form dt (x0, v0))%Q /\
        ((6 - 9 * (dt * dt)) * (fst s * fst s) <= spring_form dt (x0, v0))%Q /\
        ((1 - (3 # 2) * (dt * dt)) * (snd s * snd s) <= spring_form dt (x0, v0))%Q /\
        forall s', nth_error l (Datatypes.S k) = Some s' -> (fst s' == fst s + dt * snd s)%Q /\ (snd s' == snd s - 6 * dt * fst s')%Q.
  Proof.
    intros W fuel u0 dt x0 v0 c T g Hst HT Hf Hc. set (stp := fun s : Q * Q => ((fst s + dt * snd s)%Q, (snd s + dt * ((-6) * (fst s + dt * snd s)))%Q)).
    destruct (ca_run W fuel u0 one_node (fun _ => [0]) c T g (spring_rule dt) (fun _ a _ => stp a) (fun _ => True) (fun _ => (x0, v0)) Hst) as (uf & traj & hs & E & Hl & Hsh & Hz & Hkeys & Hk).
    - repeat constructor; cbn; intuition.
    - assumption.
    - assumption.
    - rewrite Hc. reflexivity.
    - intros v Hv. destruct Hv as [<-|[]]. exists [(0, [[("weight", 1)]])], [0]. split; [reflexivity|]. split; [eexists; split; reflexivity|]. intros w [<-|[]]. left. reflexivity.
    - intros v [<-|[]]. eexists. split; reflexivity.
    - intros v [<-|[]]. rewrite Hc. reflexivity.
    - auto.
    - intros x _ _ _ _. split; [|exact Logic.I]. unfold spring_rule, stp. destruct (x_cur x). reflexivity.
    - set (s0 := (x0, v0)) in *. exists (map (fun k => Nat.iter k stp s0) (seq 0 (length hs))).
      assert (Hst8 : forall k, ca_state (fun _ : Z => [0]) (fun _ a _ => stp a) k (fun _ => s0) 0 = Nat.iter k stp s0) by (induction k as [|k IH]; [reflexivity|rewrite ca_state_S; unfold ca_next; rewrite IH; reflexivity]).
      assert (Ehs : map (fun s => [(0, s)]) (map (fun k => Nat.iter k stp s0) (seq 0 (length hs))) = hs).
      { apply nth_error_ext. intros k. rewrite map_map, nth_error_map. destruct (nth_error hs k) as [S|] eqn:ES.
        - assert (Hlt : (k < length hs)%nat) by (apply nth_error_Some; congruence).
          rewrite (nth_error_nth' _ 0%nat) by (rewrite seq_length; assumption). rewrite seq_nth by assumption. cbn [option_map Nat.add]. f_equal.
          pose proof (Hk k S ES 0 ltac:(left; reflexivity)) as Hg. rewrite Hst8 in Hg.
          assert (Hkey : map fst S = [0]) by (destruct k as [|k]; [rewrite Hz in ES; injection ES as <-; rewrite Hc; reflexivity|apply (Hkeys k S ES)]).
          destruct S as [|[a b] [|]]; try discriminate. injection Hkey as ->. cbn in Hg. congruence.
        - apply nth_error_None in ES. assert (Hn : nth_error (seq 0 (length hs)) k = None) by (apply nth_error_None; rewrite seq_length; assumption). rewrite Hn. reflexivity. }
      rewrite Ehs. split; [exists uf, traj; auto|].
      assert (Hnth : forall k s, nth_error (map (fun k => Nat.iter k stp s0) (seq 0 (length hs))) k = Some s -> s = Nat.iter k stp s0).
      { intros k s Es. rewrite nth_error_map in Es. destruct (nth_error (seq 0 (length hs)) k) as [j|] eqn:Ej; [|discriminate]. injection Es as <-.
        assert (Hlt : (k < length (seq 0 (length hs)))%nat) by (apply nth_error_Some; congruence). rewrite (nth_error_nth' _ 0%nat Hlt) in Ej. rewrite seq_length in Hlt. rewrite seq_nth in Ej by assumption. injection Ej as <-. reflexivity. }
      assert (Hform : forall k, (spring_form dt (Nat.iter k stp s0) == spring_form dt s0)%Q).
      { induction k as [|k IH]; [reflexivity|]. rewrite <- IH. change (Nat.iter (Datatypes.S k) stp s0) with (stp (Nat.iter k stp s0)). unfold spring_form, stp. cbn [fst snd]. ring. }
      intros k s Es. apply Hnth in Es. subst s. pose proof (Hform k) as Hfk. set (s := Nat.iter k stp s0) in *. split; [assumption|]. unfold spring_form at 1 in Hfk.
      assert (Hsq : forall z : Q, (0 <= z * z)%Q) by (intros z; nra).
      split; [pose proof (Hsq (snd s + 3 * dt * fst s)%Q); set (F0 := spring_form dt s0) in *; nra|].
      split; [pose proof (Hsq (fst s + (1 # 2) * dt * snd s)%Q); set (F0 := spring_form dt s0) in *; nra|].
      intros s' Es'. apply Hnth in Es'. subst s'. change (Nat.iter (Datatypes.S k) stp s0) with (stp s). unfold stp. cbn [fst snd]. split; ring.
  Qed.

  (** the demo: started at (-2, 0) with dt = 1/40, neither curve ever leaves the plotted range (-6, 6) (lines 36, 46-50) *)
  Theorem C94_spring_demo : forall (W : env) fuel (u0 : U) T (g : args),
    e_lab W 0 = 0 -> static g (stateless (spring_rule (1 # 40))) -> 1 <= T -> (Z.to_nat T <= fuel)%nat ->
    exists l : list (Q * Q), runs W fuel u0 one_node (CList [(- (2), 0)%Q]) T g (map (fun s => [(0, s)]) l) /\ Forall (fun s => -6 < fst s < 6 /\ -6 < snd s < 6)%Q l.
  Proof.
    intros W fuel u0 T g Hlab Hst HT Hf. destruct (C94_spring W fuel u0 (1 # 40) (- (2)) 0 (CList [(- (2), 0)%Q]) T g Hst HT Hf) as (l & Hrun & Hk).
    - cbn. rewrite Hlab. reflexivity.
    - exists l. split; [assumption|]. apply Forall_forall. intros s Hin. apply In_nth_error in Hin. destruct Hin as [k Ek]. destruct (Hk k s Ek) as (_ & Hx & Hv & _).
      assert (E0 : (spring_form (1 # 40) (- (2), 0) == 24)%Q) by (vm_compute; reflexivity). rewrite E0 in Hx, Hv. clear - Hx Hv.
      assert (Hx' : (fst s * fst s < 36)%Q) by nra. assert (Hv' : (snd s * snd s < 36)%Q) by nra. clear Hx Hv. repeat split; nra.
  Qed.

  (** C94: the difference equations of the docstring (lines 22-23) use the old position for the velocity; the code uses the new one *)
  Theorem C94_spring_docstring_refuted : exists dt s, (0 < dt)%Q /\ (forall x : node_ctx Z Z (Q * Q) I, x_cur x = s -> exists s', spring_rule dt x = Ok s' /\ ~ (snd s' == snd s + dt * ((-6) * fst s))%Q).
  Proof.
    exists (1 # 40)%Q, (0%Q, 1%Q). split; [reflexivity|]. intros x Hx. unfold spring_rule. rewrite Hx. eexists. split; [reflexivity|]. vm_compute. discriminate.
  Qed.

  (** the documented equations multiply 6 x^2 + v^2 by 1 + 6 dt^2 at every step *)
  Lemma documented_step dt (x v : Q) : (6 * ((x + dt * v) * (x + dt * v)) + (v + dt * ((-6) * x)) * (v + dt * ((-6) * x)) == (1 + 6 * (dt * dt)) * (6 * (x * x) + v * v))%Q.
  Proof. ring. Qed.
End Spring.


(** ** Examples: the parameters of the demos *)
Definition Wq : env Z Z Q unit unit := mkEnv Z.of_nat Some (fun _ => 0) (fun _ => Err Unmodelled) (fun _ => Err Unmodelled) (fun _ => Err Unmodelled) (fun _ => Err Unmodelled).
Definition qargs (h : node_ctx Z Z Q unit -> res Q) (past : list (cond Z Q)) : @args Z Z Q unit unit := mkArgs (Some (stateless h)) None None past ACTIVITIES_FIRST true false true false false None.
Definition hat : list Q := (repeat 1 10 ++ repeat 2 11 ++ repeat 1 20)%Q.

Definition hat_check (n : Z) (lo hi : Q) (S : dict Z Q) : bool := forallb (fun v => match dget S v with Some a => Qle_bool lo a && Qle_bool a hi | None => false end) (zrange 0 n).
Lemma hat_check_ok n lo hi S : hat_check n lo hi S = true -> in_bounds n lo hi S.
Proof.
  intros H v Hv. unfold hat_check in H. rewrite forallb_forall in H. specialize (H v (proj2 (in_zrange _ _ _) Hv)). destruct (dget S v) as [a|]; [|discriminate].
  exists a. split; [reflexivity|]. apply andb_true_iff in H. destruct H as [H1 H2]. apply Qle_bool_iff in H1, H2. split; assumption.
Qed.

(** the top-hat profile of three demos *)
Example C93_hat : config Wq 41 (fun _ => True) (CList hat) /\ in_bounds 41 1 2 (to_dict Wq (CList hat)).
Proof.
  assert (Hb : in_bounds 41 1 2 (to_dict Wq (CList hat))) by (apply hat_check_ok; vm_compute; reflexivity). split; [|assumption].
  split; [reflexivity|]. intros v Hv. destruct (Hb v Hv) as (a & Ea & _). exists a. auto.
Qed.
(** diffusion_demo.py: F = sigma = 0.2; simple_diffusion_demo.py: F = 1/2, the largest admissible value *)
Example C93_diffusion_met : static (qargs (diffusion_rule 41 (3 # 10) (1 # 600) (1 # 20)) []) (stateless (diffusion_rule 41 (3 # 10) (1 # 600) (1 # 20))) /\
  ((3 # 10) * (1 # 600) / ((1 # 20) * (1 # 20)) == 1 # 5)%Q /\ ((1 # 4) * (1 # 2) / ((1 # 2) * (1 # 2)) == 1 # 2)%Q.
Proof. split; [repeat split|]. split; vm_compute; reflexivity. Qed.
(** linear_convection_demo.py: C = 1/2; nonlinear_convection_demo.py: the condition holds with equality *)
Example C93_convection_met : (1 * (25 # 1000) / (1 # 20) == 1 # 2)%Q /\ (2 * (25 # 1000) / (1 # 20) + 2 * (0 * (25 # 1000) / ((1 # 20) * (1 # 20))) == 1)%Q.
Proof. split; vm_compute; reflexivity. Qed.
(** burgers_equation_demo.py: dx = 2 pi / 100, about 0.0628; values between 1 and 7 *)
Example C93_burgers_met : forall dx, (6 # 100 <= dx <= 7 # 100)%Q -> let nu := (7 # 100)%Q in let dt := (dx * nu)%Q in (7 * dt / dx + 2 * (nu * dt / (dx * dx)) <= 1)%Q.
Proof.
  intros dx Hdx nu dt. assert (H0 : ~ (dx == 0)%Q) by lra. setoid_replace (7 * dt / dx + 2 * (nu * dt / (dx * dx)))%Q with (7 * nu + (2 * nu * nu) / dx)%Q by (unfold dt; field; assumption).
  assert (Hq : ((2 * nu * nu) / dx <= 1 # 2)%Q) by (apply Qle_shift_div_r; [lra|]; unfold nu; lra). unfold nu in *. lra.
Qed.

(** the activities of a run *)
Definition seen (n : res (network Z Z)) (c : cond Z Q) (T : Z) (g : @args Z Z Q unit unit) : list (dict Z Q) :=
  match n with
  | Ok net => match evolve Wq 9 tt net (Some c) (Some T) None g with Ok (_, traj) => map (fun st => match activities Wq st with Ok (Some d) => d | _ => [] end) traj | _ => [] end
  | _ => []
  end.

(** the nonlinear scheme does not conserve the sum *)
Theorem C93_nonlinear_total_refuted : exists l net S0 S1, cellular_automaton 3 1 true = Ok net /\ runs Wq 2 tt net (CList l) 2 (qargs (nonlinear_convection_rule 3 (25 # 1000) (1 # 20)) []) [S0; S1] /\
  ~ (around 3 (val S1) == around 3 (val S0))%Q.
Proof.
  exists [1; 2; 1]%Q. eexists. let x := eval vm_compute in (seen (cellular_automaton 3 1 true) (CList [1; 2; 1]%Q) 2 (qargs (nonlinear_convection_rule 3 (25 # 1000) (1 # 20)) [])) in match x with [?a; ?b] => exists a, b end.
  split; [vm_compute; reflexivity|]. split.
  - do 2 eexists. split; [vm_compute; reflexivity|]. split; [reflexivity|]. repeat constructor.
  - vm_compute. discriminate.
Qed.

(** three timesteps of the wave demo's scheme (dt / dx = 1/2) on a ring of four cells, then back *)
Example C94_wave_forth : exists net S2 S3, cellular_automaton 4 1 true = Ok net /\
  runs Wq 3 tt net (CList [0; 0; 1; 0]%Q) 3 (qargs (wave_rule 4 (1 # 20) (1 # 10)) [CList [0; 0; 1; 0]%Q]) [to_dict Wq (CList [0; 0; 1; 0]%Q); S2; S3] /\
  (val S2 0 == 0)%Q /\ (val S2 1 == 1 # 4)%Q /\ (val S2 2 == 1 # 2)%Q /\ (val S3 0 == 1 # 8)%Q /\ (val S3 2 == - (1 # 8))%Q.
Proof.
  eexists. let x := eval vm_compute in (seen (cellular_automaton 4 1 true) (CList [0; 0; 1; 0]%Q) 3 (qargs (wave_rule 4 (1 # 20) (1 # 10)) [CList [0; 0; 1; 0]%Q])) in match x with [_; ?a; ?b] => exists a, b end.
  split; [vm_compute; reflexivity|]. split.
  - do 2 eexists. split; [vm_compute; reflexivity|]. split; [reflexivity|]. repeat constructor.
  - vm_compute. auto.
Qed.
Example C94_wave_back : exists net a b c, cellular_automaton 4 1 true = Ok net /\
  runs Wq 3 tt net (CList [0; 1 # 4; 1 # 2; 1 # 4]%Q) 3 (qargs (wave_rule 4 (1 # 20) (1 # 10)) [CList [1 # 8; 1 # 2; - (1 # 8); 1 # 2]%Q]) [a; b; c] /\
  (val b 1 == 0)%Q /\ (val b 2 == 1)%Q /\ (val c 1 == 0)%Q /\ (val c 2 == 1)%Q.
Proof.
  eexists. let x := eval vm_compute in (seen (cellular_automaton 4 1 true) (CList [0; 1 # 4; 1 # 2; 1 # 4]%Q) 3 (qargs (wave_rule 4 (1 # 20) (1 # 10)) [CList [1 # 8; 1 # 2; - (1 # 8); 1 # 2]%Q])) in match x with [?a; ?b; ?c] => exists a, b, c end.
  split; [vm_compute; reflexivity|]. split.
  - do 2 eexists. split; [vm_compute; reflexivity|]. split; [reflexivity|]. repeat constructor.
  - vm_compute. auto.
Qed.
Example C94_wave_met : ((1 # 20) * (1 # 20) / ((1 # 10) * (1 # 10)) == 1 # 4)%Q /\ static (qargs (wave_rule 401 (1 # 20) (1 # 10)) [CList hat]) (stateless (wave_rule 401 (1 # 20) (1 # 10))).
Proof. split; [vm_compute; reflexivity|repeat split]. Qed.

Print Assumptions C93_diffusion.
Print Assumptions C93_diffusion_sharp.
Print Assumptions C93_convection.
Print Assumptions C93_convection_sharp.
Print Assumptions C93_burgers.
Print Assumptions C93_nonlinear_total_refuted.
Print Assumptions C94_wave.
Print Assumptions C94_wave_at_rest.
Print Assumptions C94_wave_reversible.
Print Assumptions C94_wave_unstable.
Print Assumptions C94_spring.
Print Assumptions C94_spring_demo.
Print Assumptions C94_spring_docstring_refuted.
