(** * C108: perturbation_demo.py, the continuous automata with noise *)
From Coq Require Import QArith Qabs Lqa.
From Verif Require Import Py PyFacts ListFacts Network Topology TopologySpec Evolve EvolveSpec EvolveProofs EvolveProofs2 EvolveProofs3 EvolveStatic TuringSpec TuringProofs2 PropTuring Fungal.
From Verif Require Import CaSpec CaRun CaNets EcaSpec EcaProofs PropCa RevSpec PropReversible PertSpec PertRun Perturb.
Open Scope string_scope.
Open Scope list_scope.
Open Scope Z_scope.

Lemma Forall2_pick {X Y} (P : X -> Y -> Prop) l l' k x : Forall2 P l l' -> nth_error l k = Some x -> exists y, nth_error l' k = Some y /\ P x y.
Proof. intros Hf. revert k. induction Hf as [|a b l l' Hab Hf IH]; intros [|k] E; try discriminate; [injection E as <-; exists b; auto|apply IH, E]. Qed.

Lemma neg_square z : (- (10) * (z * z) <= 0)%Q.
Proof. assert (H : (0 <= z * z)%Q) by (destruct (Qlt_le_dec z 0); nra). lra. Qed.

(** ** the noise *)
(** [b] is [a] moved away from 1/2 by [e] *)
Definition moved_away (a b e : Q) : Prop := ((a < 1 # 2 -> b == a - e) /\ (a == 1 # 2 -> b == a) /\ (1 # 2 < a -> b == a + e))%Q.
Definition noise (amount : Q) (draw : nat -> Q) (n : nat) (pos : Z -> nat) (k : nat) (v : Z) (a : Q) : Q := (a + np_sign (a - 1 / 2) * draw (k * n + pos v)%nat * amount)%Q.

Lemma sign_away a w amount : moved_away a (a + np_sign (a - 1 / 2) * w * amount)%Q (w * amount)%Q.
Proof.
  assert (Eh : (1 / 2 == 1 # 2)%Q) by reflexivity. set (half := (1 / 2)%Q) in *. clearbody half.
  unfold moved_away, np_sign. destruct (Qle_bool (a - half) 0) eqn:E1.
  - apply Qle_bool_iff in E1. destruct (Qeq_bool (a - half) 0) eqn:E2.
    + apply Qeq_bool_iff in E2. split; [intros Hl; lra|]. split; [intros _; ring|intros Hl; lra].
    + apply Qeq_bool_neq in E2. split; [intros _; ring|]. split; [intros E; exfalso; apply E2; lra|intros Hl; lra].
  - assert (Hg : ~ (a - half <= 0)%Q) by (intros Hle; apply Qle_bool_iff in Hle; congruence). split; [intros Hl; lra|]. split; [intros E; lra|intros _; ring].
Qed.

(** the position in a list *)
Fixpoint index_of (l : list Z) (v : Z) : nat := match l with [] => 0%nat | w :: l' => if w =? v then 0%nat else S (index_of l' v) end.
Lemma index_of_at done v rest : ~ In v done -> index_of (done ++ v :: rest) v = length done.
Proof.
  induction done as [|w done IH]; intros Hin; cbn [app index_of length]; [rewrite Z.eqb_refl; reflexivity|].
  destruct (Z.eqb_spec w v) as [-> | ]; [exfalso; apply Hin; left; reflexivity|]. rewrite IH; [reflexivity|]. intros Hi. apply Hin. right. exact Hi.
Qed.
Lemma index_of_nth l v : In v l -> nth_error l (index_of l v) = Some v.
Proof. induction l as [|w l IH]; intros []; cbn [index_of]; destruct (Z.eqb_spec w v) as [-> | ]; try reflexivity; [congruence|]. cbn [nth_error]. auto. Qed.

(** ** the rules on three values *)
Definition f30 (expo : Q -> Q) (v : Z) (e : Q) (l : list Q) : Q := match l with [a; b; c] => lambda_ expo (a + b + c + b * c)%Q | _ => e end.
Definition f90 (expo : Q -> Q) (v : Z) (e : Q) (l : list Q) : Q := match l with [a; b; c] => lambda_ expo (a + c)%Q | _ => e end.

Section Noise.
  Context {I BA BN : Type} (W : env Z Z Q BA BN) (Hlab : forall i, e_lab W i = Z.of_nat i) (expo : Q -> Q).
  Notation ctx := (node_ctx Z Z Q I).

  (** the values of [S] around cell [v] of a ring *)
  Definition around (n : Z) (S : dict Z Q) (v : Z) (a b c : Q) : Prop := dget S ((v - 1) mod n) = Some a /\ dget S v = Some b /\ dget S ((v + 1) mod n) = Some c.

  Definition qcell (l : list Q) (v : Z) : Q := nth (Z.to_nat v) l 0%Q.

  Lemma noise_run fuel n (h : ctx -> res Q) f amount draw init T : 3 <= n ->
    (forall x a b c, x_nacts x = [a; b; c] -> h x = Ok (f (x_label x) (x_cur x) [a; b; c])) ->
    Z.of_nat (length init) = n -> 1 <= T -> (Z.to_nat T <= fuel)%nat ->
    exists net traj hs pos, perturbation_demo W fuel n h amount draw init T = Ok (net, traj) /\ Z.of_nat (length hs) = T /\ Forall2 (fun st S => activities W st = Ok (shown_acts S)) traj hs /\
      (forall v, 0 <= v < n -> (pos v < Z.to_nat n)%nat) /\ (forall v w, 0 <= v < n -> 0 <= w < n -> pos v = pos w -> v = w) /\
      forall k S, nth_error hs k = Some S -> forall v, 0 <= v < n -> dget S v = Some (pert_state (ring_nb n 1) f (noise amount draw (Z.to_nat n) pos) (qcell init) k v).
  Proof.
    intros Hn Hh Hli HT Hf. destruct (ring_lattice n 1 Hn ltac:(lia) ltac:(lia)) as (net & E & Hlat). pose proof Hlat as (Hnd & Hnodes & Hcl & Hlen & Hnb & Hub).
    pose proof (shows_list W init Hlab) as (S1 & S2 & S3). rewrite Hli in S2, S3. set (pos := index_of (nodes net)).
    assert (Hcount : length (nodes net) = Z.to_nat n) by (unfold nodes, dkeys; rewrite map_length; change (length (net_nodes net)) with (net_len net); lia).
    destruct (pert_ca_run (I := I) W fuel 0%nat net (ring_nb n 1) (CList init) T (pert_args h (noise_perturbation amount draw)) h f (noise_perturbation amount draw) (noise amount draw (Z.to_nat n) pos) (fun _ => True)
      (fun k done u => u = (k * Z.to_nat n + length done)%nat) (qcell init)) as (hs & (uf & traj & Ev & Hl & Hshow) & Hz & Hkeys & _ & Hk).
    - repeat split; reflexivity.
    - exact Hnd.
    - exact HT.
    - exact Hf.
    - cbn [to_dict]. unfold enumerate. rewrite map_length, combine_length, seq_length. lia.
    - exact Hcl.
    - intros v Hv. apply Hnb, Hnodes, Hv.
    - intros v Hv. apply Hnodes in Hv. rewrite S3 by exact Hv. unfold qcell. apply nth_error_nth'. lia.
    - auto.
    - intros x Hx _ _ Hla. split; [|exact Logic.I]. rewrite length_ring_nb in Hla by lia. change (Z.to_nat (2 * 1 + 1)) with 3%nat in Hla.
      destruct (x_nacts x) as [|a [|b [|c [|]]]] eqn:Ex; try discriminate. apply Hh. exact Ex.
    - auto.
    - cbn. reflexivity.
    - intros k done v rest u a i En ->. unfold noise_perturbation, noise. cbn [p_act].
      assert (Hv : ~ In v done) by (rewrite En in Hnd; apply NoDup_remove_2 in Hnd; intros Hin; apply Hnd, in_or_app; left; assumption).
      assert (Ep : pos v = length done) by (unfold pos; rewrite En; apply index_of_at; exact Hv). rewrite Ep. eexists. split; [reflexivity|]. rewrite app_length. cbn [length]. lia.
    - intros k u ->. rewrite Hcount. cbn [length]. lia.
    - exists net, traj, hs, pos. split; [unfold perturbation_demo; rewrite E; cbn [rbind]; rewrite Ev; reflexivity|]. split; [exact Hl|]. split; [exact Hshow|].
      assert (Hat : forall v, 0 <= v < n -> nth_error (nodes net) (pos v) = Some v) by (intros v Hv; apply index_of_nth, Hnodes, Hv).
      split; [intros v Hv; rewrite <- Hcount; apply nth_error_Some; rewrite (Hat v Hv); discriminate|].
      split; [intros v w Hv Hw Ep; pose proof (Hat v Hv) as Ev1; rewrite Ep, (Hat w Hw) in Ev1; congruence|].
      intros k S Ek v Hv. apply (Hk k S Ek v). apply Hnodes, Hv.
  Qed.

  Lemma rule30_values (x : ctx) a b c : x_nacts x = [a; b; c] -> algebraic_rule_30 expo x = Ok (f30 expo (x_label x) (x_cur x) [a; b; c]).
  Proof. intros E. unfold algebraic_rule_30. rewrite E. reflexivity. Qed.
  Lemma rule90_values (x : ctx) a b c : x_nacts x = [a; b; c] -> algebraic_rule_90 expo x = Ok (f90 expo (x_label x) (x_cur x) [a; b; c]).
  Proof. intros E. unfold algebraic_rule_90. rewrite E. reflexivity. Qed.

  (** which of the two rules: its combination of the three values *)
  Definition script_rule (h : ctx -> res Q) (mix : Q -> Q -> Q -> Q) : Prop :=
    (h = algebraic_rule_30 expo /\ mix = fun a b c => (a + b + c + b * c)%Q) \/ (h = algebraic_rule_90 expo /\ mix = fun a b c => (a + c)%Q).

  Lemma script_fun h mix : script_rule h mix -> exists f, (forall x a b c, x_nacts x = [a; b; c] -> h x = Ok (f (x_label x) (x_cur x) [a; b; c])) /\ (forall v e a b c, f v e [a; b; c] = lambda_ expo (mix a b c)).
  Proof. intros [[-> ->]|[-> ->]]; [exists (f30 expo)|exists (f90 expo)]; (split; [intros x a b c; first [apply rule30_values|apply rule90_values]|reflexivity]). Qed.

  (** every recorded activity is the value of the rule on the three activities before, moved away from 1/2 by its own draw times the amount *)
  Theorem C108_noise : forall fuel n (h : ctx -> res Q) mix amount draw init T, 3 <= n -> script_rule h mix -> Z.of_nat (length init) = n -> 1 <= T -> (Z.to_nat T <= fuel)%nat ->
    exists net traj hs pos, perturbation_demo W fuel n h amount draw init T = Ok (net, traj) /\ Z.of_nat (length hs) = T /\ Forall2 (fun st S => activities W st = Ok (shown_acts S)) traj hs /\
      (forall v, 0 <= v < n -> (pos v < Z.to_nat n)%nat) /\ (forall v w, 0 <= v < n -> 0 <= w < n -> pos v = pos w -> v = w) /\
      (forall S v, nth_error hs 0 = Some S -> 0 <= v < n -> dget S v = nth_error init (Z.to_nat v)) /\
      forall k S S' v, nth_error hs k = Some S -> nth_error hs (Datatypes.S k) = Some S' -> 0 <= v < n ->
        exists a b c y, around n S v a b c /\ dget S' v = Some y /\
          let x := mix a b c in
          moved_away (expo (- (10) * ((x - 1) * (x - 1))) + expo (- (10) * ((x - 3) * (x - 3))))%Q y (draw (k * Z.to_nat n + pos v)%nat * amount)%Q.
  Proof.
    intros fuel n h mix amount draw init T Hn Hr Hli HT Hf. destruct (script_fun h mix Hr) as (f & Hh & Hmix).
    destruct (noise_run fuel n h f amount draw init T Hn Hh Hli HT Hf) as (net & traj & hs & pos & Ev & Hl & Hshow & Hp1 & Hp2 & Hk). exists net, traj, hs, pos.
    split; [exact Ev|]. split; [exact Hl|]. split; [exact Hshow|]. split; [exact Hp1|]. split; [exact Hp2|]. split.
    - intros S v E0 Hv. rewrite (Hk 0%nat S E0 v Hv). symmetry. cbn [pert_state]. unfold qcell. apply nth_error_nth'. lia.
    - intros k S S' v Ek Ek' Hv. set (st := pert_state (ring_nb n 1) f (noise amount draw (Z.to_nat n) pos) (qcell init)) in *.
      exists (st k ((v - 1) mod n)), (st k v), (st k ((v + 1) mod n)), (st (Datatypes.S k) v).
      split; [repeat split; apply (Hk k S Ek); first [exact Hv|apply Z.mod_pos_bound; lia]|]. split; [apply (Hk _ S' Ek' v Hv)|].
      cbn [st pert_state]. fold st. unfold ca_next. change (ring_nb n 1 v) with [(v - 1) mod n; (v + 0) mod n; (v + 1) mod n]. cbn [map]. rewrite Z.add_0_r, (Z.mod_small v n Hv), Hmix. apply sign_away.
  Qed.

  (** with draws from [0, 1] and an exponential between 0 and 1 on the negative numbers, the activities stay in [-amount, 2 + amount] *)
  Theorem C108_bounds : forall fuel n (h : ctx -> res Q) mix amount draw init T net traj, 3 <= n -> script_rule h mix -> Z.of_nat (length init) = n -> 1 <= T -> (Z.to_nat T <= fuel)%nat ->
    (0 <= amount)%Q -> (forall i, 0 <= draw i <= 1)%Q -> (forall z, z <= 0 -> 0 <= expo z <= 1)%Q ->
    perturbation_demo W fuel n h amount draw init T = Ok (net, traj) ->
    forall k st v, (1 <= k)%nat -> nth_error traj k = Some st -> 0 <= v < n -> exists S y, activities W st = Ok (Some S) /\ dget S v = Some y /\ (- amount <= y <= 2 + amount)%Q.
  Proof.
    intros fuel n h mix amount draw init T net traj Hn Hr Hli HT Hf Ha Hd He E k st v Hk Est Hv.
    destruct (C108_noise fuel n h mix amount draw init T Hn Hr Hli HT Hf) as (net' & traj' & hs & pos & Ev & Hl & Hshow & _ & _ & _ & Hsteps).
    rewrite E in Ev. injection Ev as <- <-. destruct k as [|k]; [lia|]. destruct (Forall2_pick _ _ _ _ _ Hshow Est) as (S' & ES' & Eact).
    assert (Hlt : (Datatypes.S k < length hs)%nat) by (apply nth_error_Some; congruence).
    destruct (nth_error hs k) as [S|] eqn:ES; [|apply nth_error_None in ES; lia].
    destruct (Hsteps k S S' v ES ES' Hv) as (a & b & c & y & _ & Ey & Hm). exists S', y. split.
    - rewrite Eact. destruct S'; [discriminate|reflexivity].
    - split; [exact Ey|]. cbv zeta in Hm. set (x := mix a b c) in Hm. clearbody x. destruct Hm as (H1 & H2 & H3).
      pose proof (He (- (10) * ((x - 1) * (x - 1)))%Q (neg_square _)) as B1. pose proof (He (- (10) * ((x - 3) * (x - 3)))%Q (neg_square _)) as B2.
      pose proof (Hd (k * Z.to_nat n + pos v)%nat) as Bw. set (w := draw (k * Z.to_nat n + pos v)%nat) in *. clearbody w.
      assert (Hwa : (0 <= w * amount <= amount)%Q) by (split; nra).
      set (e1 := expo (- (10) * ((x - 1) * (x - 1)))%Q) in *. set (e2 := expo (- (10) * ((x - 3) * (x - 3)))%Q) in *. clearbody e1 e2. set (d := (w * amount)%Q) in *. clearbody d.
      destruct (Q_dec (e1 + e2) (1 # 2)) as [[Hlt'|Hgt]|Heq]; [specialize (H1 Hlt')|specialize (H3 Hgt)|specialize (H2 Heq)]; lra.
  Qed.
End Noise.
Print Assumptions C108_noise.
Print Assumptions C108_bounds.

(** ** small noise: the continuous automata follow the elementary ones *)
Definition near (y : Q) (b : Z) : Prop := (- (3 # 1000) <= y - inject_Z b <= 3 # 1000)%Q.
(** true of the exponential: 1 + z <= exp z <= 1 for negative z, and exp (-9) is below 1/8000 *)
Definition exp_like (expo : Q -> Q) : Prop := (forall z, z <= 0 -> 0 <= expo z <= 1 /\ 1 + z <= expo z)%Q /\ (forall z, z <= - (9) -> expo z <= 1 # 8000)%Q.

Section Shadow.
  Context (expo : Q -> Q) (He : exp_like expo).
  Open Scope Q_scope.

  Lemma expo_peak x p : - (16 # 1000) <= x - p <= 16 # 1000 -> 1 - (257 # 100000) <= expo (- (10) * ((x - p) * (x - p))) <= 1.
  Proof. intros Hx. destruct He as [H1 _]. destruct (H1 (- (10) * ((x - p) * (x - p))) (neg_square _)) as [B1 B2]. split; [|apply B1]. assert ((x - p) * (x - p) <= 256 # 1000000) by nra. lra. Qed.
  Lemma expo_tail x p : (x - p <= - (984 # 1000) \/ 984 # 1000 <= x - p) -> 0 <= expo (- (10) * ((x - p) * (x - p))) <= 1 # 8000.
  Proof.
    intros Hx. assert (Hsq : 968 # 1000 <= (x - p) * (x - p)) by (destruct Hx; nra). destruct He as [H1 H2]. split; [apply (H1 (- (10) * ((x - p) * (x - p)))); lra|apply H2; lra].
  Qed.

  (** the value at a point next to an integer [m] *)
  Lemma lambda_near x (m : Z) : (0 <= m <= 4)%Z -> - (16 # 1000) <= x - inject_Z m <= 16 # 1000 ->
    (m = 1%Z \/ m = 3%Z -> 1 - (257 # 100000) <= lambda_ expo x <= 1 + (1 # 8000)) /\ (m = 0%Z \/ m = 2%Z \/ m = 4%Z -> 0 <= lambda_ expo x <= 1 # 4000).
  Proof.
    intros Hm Hx. unfold lambda_. assert (Hc : m = 0%Z \/ m = 1%Z \/ m = 2%Z \/ m = 3%Z \/ m = 4%Z) by lia.
    destruct Hc as [-> | [-> | [-> | [-> | -> ]]]]; unfold inject_Z in Hx; split; intros Hk; try (exfalso; lia).
    - pose proof (expo_tail x 1 ltac:(lra)). pose proof (expo_tail x 3 ltac:(lra)). lra.
    - pose proof (expo_peak x 1 ltac:(lra)). pose proof (expo_tail x 3 ltac:(lra)). lra.
    - pose proof (expo_tail x 1 ltac:(lra)). pose proof (expo_tail x 3 ltac:(lra)). lra.
    - pose proof (expo_tail x 1 ltac:(lra)). pose proof (expo_peak x 3 ltac:(lra)). lra.
    - pose proof (expo_tail x 1 ltac:(lra)). pose proof (expo_tail x 3 ltac:(lra)). lra.
  Qed.

  Lemma moved_near a y e (b : Z) : 0 <= e <= 1 # 500 -> moved_away a y e -> (b = 1%Z /\ 1 - (257 # 100000) <= a <= 1 + (1 # 8000) \/ b = 0%Z /\ 0 <= a <= 1 # 4000) -> near y b.
  Proof.
    intros Hw (H1 & _ & H3) [[-> B]|[-> B]]; unfold near, inject_Z.
    - specialize (H3 ltac:(lra)). lra.
    - specialize (H1 ltac:(lra)). lra.
  Qed.

  Lemma prod_small p q : - (3 # 1000) <= p <= 3 # 1000 -> - (3 # 1000) <= q <= 3 # 1000 -> - (1 # 1000) <= p * q <= 1 # 1000.
  Proof. intros [H1 H2] [H3 H4]. split; nra. Qed.
  Lemma near_mul y z (b c : Z) : bit b -> bit c -> near y b -> near z c -> - (7 # 1000) <= y * z - inject_Z (b * c) <= 7 # 1000.
  Proof.
    intros Hb Hc Hy Hz. unfold near in *. pose proof (prod_small _ _ Hy Hz) as Hp. rewrite inject_Z_mult.
    assert (E : y * z - inject_Z b * inject_Z c == (y - inject_Z b) * (z - inject_Z c) + inject_Z b * (z - inject_Z c) + inject_Z c * (y - inject_Z b)) by ring. rewrite E.
    destruct Hb as [-> | -> ], Hc as [-> | -> ]; unfold inject_Z in *; lra.
  Qed.

  Lemma bit3 (b1 b2 b3 : Z) : bit b1 -> bit b2 -> bit b3 ->
    eca 30 0 0 [b1; b2; b3] = (if ((b1 + b2 + b3 + b2 * b3 =? 1) || (b1 + b2 + b3 + b2 * b3 =? 3))%Z then 1%Z else 0%Z) /\ (0 <= b1 + b2 + b3 + b2 * b3 <= 4)%Z /\
    eca 90 0 0 [b1; b2; b3] = (if (b1 + b3 =? 1)%Z then 1%Z else 0%Z) /\ (0 <= b1 + b3 <= 2)%Z.
  Proof. intros [-> | -> ] [-> | -> ] [-> | -> ]; vm_compute; repeat split; congruence. Qed.

  Lemma near30 a b c b1 b2 b3 y e : bit b1 -> bit b2 -> bit b3 -> near a b1 -> near b b2 -> near c b3 -> 0 <= e <= 1 # 500 ->
    moved_away (lambda_ expo (a + b + c + b * c)) y e -> near y (eca 30 0 0 [b1; b2; b3]).
  Proof.
    intros B1 B2 B3 N1 N2 N3 Hw Hm. destruct (bit3 b1 b2 b3 B1 B2 B3) as (Ev & Hr & _). pose proof (near_mul b c b2 b3 B2 B3 N2 N3) as N4. rewrite Ev.
    assert (Hx : - (16 # 1000) <= (a + b + c + b * c) - inject_Z (b1 + b2 + b3 + b2 * b3) <= 16 # 1000).
    { rewrite !inject_Z_plus. unfold near in N1, N2, N3. lra. }
    destruct (lambda_near _ _ Hr Hx) as [Hone Hzero]. eapply moved_near; [exact Hw|exact Hm|].
    destruct (Z.eqb_spec (b1 + b2 + b3 + b2 * b3) 1) as [E1|E1]; cbn [orb]; [left; split; [reflexivity|apply Hone; auto]|].
    destruct (Z.eqb_spec (b1 + b2 + b3 + b2 * b3) 3) as [E3|E3]; [left; split; [reflexivity|apply Hone; auto]|right; split; [reflexivity|apply Hzero; lia]].
  Qed.
  Lemma near90 a b c b1 b2 b3 y e : bit b1 -> bit b2 -> bit b3 -> near a b1 -> near b b2 -> near c b3 -> 0 <= e <= 1 # 500 ->
    moved_away (lambda_ expo (a + c)) y e -> near y (eca 90 0 0 [b1; b2; b3]).
  Proof.
    intros B1 B2 B3 N1 N2 N3 Hw Hm. destruct (bit3 b1 b2 b3 B1 B2 B3) as (_ & _ & Ev & Hr). rewrite Ev.
    assert (Hx : - (16 # 1000) <= (a + c) - inject_Z (b1 + b3) <= 16 # 1000) by (rewrite !inject_Z_plus; unfold near in N1, N3; lra).
    destruct (lambda_near (a + c) (b1 + b3)%Z ltac:(lia) Hx) as [Hone Hzero]. eapply moved_near; [exact Hw|exact Hm|].
    destruct (Z.eqb_spec (b1 + b3) 1) as [E1|E1]; [left; split; [reflexivity|apply Hone; auto]|right; split; [reflexivity|apply Hzero; lia]].
  Qed.
End Shadow.

(** the rule that each script rule generalises *)
Definition discrete {I} expo (h : node_ctx Z Z Q I -> res Q) (N : Z) : Prop := (h = algebraic_rule_30 expo /\ N = 30) \/ (h = algebraic_rule_90 expo /\ N = 90).

(** with noise of at most 1/500, every activity stays within 3/1000 of the cell of the elementary automaton *)
Theorem C108_follows : forall {I BA BN} (W : env Z Z Q BA BN) expo fuel n (h : node_ctx Z Z Q I -> res Q) N amount draw init bits T, (forall i, e_lab W i = Z.of_nat i) -> exp_like expo ->
  3 <= n -> discrete expo h N -> Z.of_nat (length bits) = n -> Forall bit bits -> Forall2 near init bits -> 1 <= T -> (Z.to_nat T <= fuel)%nat ->
  (0 <= amount <= 1 # 500)%Q -> (forall i, 0 <= draw i <= 1)%Q ->
  exists net traj hs, perturbation_demo W fuel n h amount draw init T = Ok (net, traj) /\ Z.of_nat (length hs) = T /\ Forall2 (fun st S => activities W st = Ok (shown_acts S)) traj hs /\
    forall k S v, nth_error hs k = Some S -> 0 <= v < n -> exists y, dget S v = Some y /\ near y (ca_state (ring_nb n 1) (eca N) k (cell_of bits) v).
Proof.
  intros I BA BN W expo fuel n h N amount draw init bits T Hlab He Hn Hd Hlb Hbb Hnear HT Hf Ha Hw.
  assert (Hli : Z.of_nat (length init) = n) by (rewrite <- Hlb; f_equal; clear -Hnear; induction Hnear; cbn [length]; congruence).
  assert (Hr : exists mix, script_rule expo h mix /\ forall a b c b1 b2 b3 y e, bit b1 -> bit b2 -> bit b3 -> near a b1 -> near b b2 -> near c b3 -> (0 <= e <= 1 # 500)%Q ->
     moved_away (lambda_ expo (mix a b c)) y e -> near y (eca N 0 0 [b1; b2; b3])).
  { destruct Hd as [[-> ->]|[-> ->]]; eexists; (split; [unfold script_rule; first [left; split; reflexivity|right; split; reflexivity]|]); intros; [eapply near30|eapply near90]; eassumption. }
  destruct Hr as (mix & Hscript & Hstep).
  destruct (C108_noise W Hlab expo fuel n h mix amount draw init T Hn Hscript Hli HT Hf) as (net & traj & hs & pos & Ev & Hl & Hshow & _ & _ & H0 & Hs).
  exists net, traj, hs. split; [exact Ev|]. split; [exact Hl|]. split; [exact Hshow|].
  assert (Hbits : forall k v, 0 <= v < n -> bit (ca_state (ring_nb n 1) (eca N) k (cell_of bits) v)).
  { intros [|k] v Hv; [|rewrite ca_state_S; apply bit_eca]. change (bit (cell_of bits v)). rewrite Forall_forall in Hbb. apply Hbb. unfold cell_of. apply nth_In. lia. }
  induction k as [|k IH]; intros S v Ek Hv.
  - rewrite (H0 S v Ek Hv). destruct (nth_error init (Z.to_nat v)) as [y|] eqn:Ey; [|apply nth_error_None in Ey; lia].
    destruct (Forall2_pick _ _ _ _ _ Hnear Ey) as (b & Eb & Hnb). exists y. split; [reflexivity|]. change (near y (cell_of bits v)). unfold cell_of. rewrite (nth_error_nth _ _ 0 Eb). exact Hnb.
  - assert (Hlt : (Datatypes.S k < length hs)%nat) by (apply nth_error_Some; congruence).
    destruct (nth_error hs k) as [S0|] eqn:E0; [|apply nth_error_None in E0; lia].
    destruct (Hs k S0 S v E0 Ek Hv) as (a & b & c & y & (E1 & E2 & E3) & Ey & Hm). exists y. split; [exact Ey|].
    assert (Hl1 : 0 <= (v - 1) mod n < n) by (apply Z.mod_pos_bound; lia). assert (Hr1 : 0 <= (v + 1) mod n < n) by (apply Z.mod_pos_bound; lia).
    destruct (IH S0 _ eq_refl Hl1) as (a' & Ea' & Na). destruct (IH S0 v eq_refl Hv) as (b' & Eb' & Nb). destruct (IH S0 _ eq_refl Hr1) as (c' & Ec' & Nc).
    assert (a' = a) by congruence. assert (b' = b) by congruence. assert (c' = c) by congruence. subst a' b' c'.
    rewrite ca_state_S. unfold ca_next. change (ring_nb n 1 v) with [(v - 1) mod n; (v + 0) mod n; (v + 1) mod n]. cbn [map]. rewrite Z.add_0_r, (Z.mod_small v n Hv).
    change (near y (eca N 0 0 [ca_state (ring_nb n 1) (eca N) k (cell_of bits) ((v - 1) mod n); ca_state (ring_nb n 1) (eca N) k (cell_of bits) v; ca_state (ring_nb n 1) (eca N) k (cell_of bits) ((v + 1) mod n)])).
    refine (Hstep a b c _ _ _ y _ (Hbits k _ Hl1) (Hbits k v Hv) (Hbits k _ Hr1) Na Nb Nc _ Hm).
    pose proof (Hw (k * Z.to_nat n + pos v)%nat) as Bw. destruct Ha as [Ha1 Ha2]. split; nra.
Qed.
Print Assumptions C108_follows.

(** ** the amount of the script, 0.02, is too large for that: an [exp_like] function close to the exponential, draws of 0.99, 4 cells, 7 timesteps *)
Definition round20 (x : Q) : Q := (Qnum x * 1048576 / Zpos (Qden x)) # 1048576.
(** (1 + z/256) to the power 256 by repeated squaring, rounded *)
Definition power256 (z : Q) : Q := Nat.iter 8 (fun y => round20 (y * y)) (round20 (if Qle_bool (- (256)) z then 1 + z / 256 else 0))%Q.
Definition rough_exp (z : Q) : Q :=
  if Qle_bool z (- (9)) then 1 # 10000 else
  let up := (round20 (1 + z) + (1 # 1048576))%Q in
  let y := power256 z in let y1 := if Qle_bool y up then up else y in if Qle_bool y1 0 then 0%Q else if Qle_bool 1 y1 then 1%Q else y1.
Lemma round20_up x : (x <= round20 x + (1 # 1048576))%Q.
Proof.
  unfold round20. destruct x as [a d]. cbn [Qnum Qden]. pose proof (Z.mul_succ_div_gt (a * 1048576) (Zpos d) ltac:(lia)) as Hg.
  setoid_replace ((a * 1048576 / Zpos d # 1048576) + (1 # 1048576))%Q with ((a * 1048576 / Zpos d + 1) # 1048576)%Q by (unfold Qeq, Qplus; cbn [Qnum Qden]; lia).
  unfold Qle. cbn [Qnum Qden]. lia.
Qed.
Lemma Qle_bool_false a b : Qle_bool a b = false -> (b < a)%Q.
Proof. intros E. apply Qnot_le_lt. intros Hle. apply Qle_bool_iff in Hle. congruence. Qed.
Lemma rough_exp_like : exp_like rough_exp.
Proof.
  split; intros z Hz; unfold rough_exp.
  - destruct (Qle_bool z (- (9))) eqn:E9; [apply Qle_bool_iff in E9; lra|]. apply Qle_bool_false in E9. pose proof (round20_up (1 + z)) as Hup.
    generalize dependent (round20 (1 + z)%Q + (1 # 1048576))%Q. intros up Hup. generalize (power256 z). intros y. cbv zeta.
    destruct (Qle_bool y up) eqn:Ey; [apply Qle_bool_iff in Ey|apply Qle_bool_false in Ey].
    + destruct (Qle_bool up 0) eqn:E0; [apply Qle_bool_iff in E0; lra|]. apply Qle_bool_false in E0. destruct (Qle_bool 1 up) eqn:E1; [lra|]. apply Qle_bool_false in E1. lra.
    + destruct (Qle_bool y 0) eqn:E0; [apply Qle_bool_iff in E0; lra|]. apply Qle_bool_false in E0. destruct (Qle_bool 1 y) eqn:E1; [lra|]. apply Qle_bool_false in E1. lra.
  - destruct (Qle_bool z (- (9))) eqn:E9; [lra|]. apply Qle_bool_false in E9. lra.
Qed.
Definition WQ : env Z Z Q unit unit := mkEnv Z.of_nat Some (fun _ => 0) (fun _ => Err Unmodelled) (fun _ => Err Unmodelled) (fun _ => Err Unmodelled) (fun _ => Err Unmodelled).
Definition high_draw (i : nat) : Q := 99 # 100.
Definition bits4 : list Z := [0; 0; 1; 0].
Definition value_at (run : res (network Z Z * list (@state Z Z Q unit unit))) (k : nat) (v : Z) : option Q :=
  match run with
  | Ok (_, traj) => match nth_error traj k with Some st => match activities WQ st with Ok (Some D) => dget D v | _ => None end | None => None end
  | Err _ => None end.
Theorem C108_amount_refuted : exists expo draw bits k v y, exp_like expo /\ (forall i, 0 <= draw i <= 1)%Q /\ Forall bit bits /\ Z.of_nat (length bits) = 4 /\ (k < 7)%nat /\ 0 <= v < 4 /\
  value_at (perturbation_demo (I := Z) WQ 10 4 (algebraic_rule_30 expo) (2 # 100) draw (map inject_Z bits) 7) k v = Some y /\ (3 # 4 < y)%Q /\ ca_state (ring_nb 4 1) (eca 30) k (cell_of bits) v = 0.
Proof.
  assert (Hc : match value_at (perturbation_demo (I := Z) WQ 10 4 (algebraic_rule_30 rough_exp) (2 # 100) high_draw (map inject_Z bits4) 7) 6 1 with Some y => Qle_bool y (3 # 4) = false | None => False end) by (vm_compute; reflexivity).
  exists rough_exp, high_draw, bits4, 6%nat, 1.
  destruct (value_at (perturbation_demo (I := Z) WQ 10 4 (algebraic_rule_30 rough_exp) (2 # 100) high_draw (map inject_Z bits4) 7) 6 1) as [y|]; [|contradiction].
  exists y. split; [exact rough_exp_like|]. split; [intros i; unfold high_draw; lra|]. split; [repeat (constructor; [unfold bit; auto|]); constructor|]. split; [reflexivity|]. split; [lia|]. split; [lia|].
  split; [reflexivity|]. split; [apply Qle_bool_false, Hc|vm_compute; reflexivity].
Qed.
Print Assumptions C108_amount_refuted.

(** ** Examples *)
Example C108_nonvacuous : exp_like rough_exp /\ Forall2 near (map inject_Z bits4) bits4 /\ Forall bit bits4 /\ discrete (I := Z) rough_exp (algebraic_rule_30 rough_exp) 30 /\
  script_rule (I := Z) rough_exp (algebraic_rule_90 rough_exp) (fun a b c => (a + c)%Q).
Proof.
  split; [exact rough_exp_like|]. split; [repeat (constructor; [unfold near, inject_Z; lra|]); constructor|]. split; [repeat (constructor; [unfold bit; auto|]); constructor|].
  split; [left; split; reflexivity|right; split; reflexivity].
Qed.
(** noise of 1/500: within 3/1000 of the row of rule 30 at timestep 6, but not equal to it *)
Example C108_follows_example : match value_at (perturbation_demo (I := Z) WQ 10 4 (algebraic_rule_30 rough_exp) (1 # 500) high_draw (map inject_Z bits4) 7) 3 1 with
  | Some y => (Qle_bool (997 # 1000) y = true /\ Qle_bool y (1003 # 1000) = true /\ Qeq_bool y 1 = false) | None => False end /\ ca_state (ring_nb 4 1) (eca 30) 3 (cell_of bits4) 1 = 1.
Proof. vm_compute. repeat split. Qed.
