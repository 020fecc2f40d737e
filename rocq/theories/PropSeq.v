(** * C104: sequential cellular automata; the rule 60 demo is Pascal's triangle modulo two *)
From Verif Require Import Py PyFacts ListFacts Network Topology TopologySpec Evolve EvolveSpec EvolveProofs EvolveProofs3 EvolveStatic Async AsyncProofs Rules RulesSpec RulesProofs Utils UtilsProofs CaSpec CaRun CaNets EcaSpec EcaProofs SeqSpec SeqRun PropRules PropCa PropEca PropUtils TuringSpec TuringProofs2 PropTuring PropEvolve PropAsync.
Open Scope string_scope.
Open Scope list_scope.
Open Scope Z_scope.

(** any network, any rule that reads only its own activity and its neighbours' *)
Theorem C104_sequential : forall {L V A U I BA BN} `{EqD L} `{EqD A} (W : env L V A BA BN) shuffle fuel (u0 : U) order a (n : network L V) nb c T (g : @args L V A (U * async L) I) h f (P : A -> Prop) (s : L -> A),
  static g (async_call shuffle false (stateless h)) -> async_init shuffle (Some order) None = Ok a ->
  NoDup (nodes n) -> closed n -> (forall v, In v (nodes n) -> nbrs_of n v (nb v)) ->
  1 <= T -> (Z.to_nat T <= fuel)%nat -> length (to_dict W c) = net_len n ->
  (forall v, In v (nodes n) -> dget (to_dict W c) v = Some (s v) /\ P (s v)) ->
  (forall x : node_ctx L V A I, In (x_label x) (nodes n) -> P (x_cur x) -> Forall P (x_nacts x) -> length (x_nacts x) = length (nb (x_label x)) ->
     h x = Ok (f (x_label x) (x_cur x) (x_nacts x)) /\ P (f (x_label x) (x_cur x) (x_nacts x))) ->
  NoDup order -> incl order (nodes n) -> order <> [] ->
  exists hs, runs W fuel (u0, a) n c T g hs /\ nth_error hs 0 = Some (to_dict W c) /\
    forall k S v, nth_error hs k = Some S -> In v (nodes n) -> dget S v = Some (seq_state nb f order k s v).
Proof.
  intros L V A U I BA BN HL HA W shuffle fuel u0 order a n nb c T g h f P s Hst Ea Hnd Hcl Hnb HT Hf Hlen Hs Hh Hno Hi Hne.
  cbn in Ea. injection Ea as <-.
  destruct (seq_run W shuffle fuel u0 order n nb c T g h f P s Hst Hnd HT Hf Hlen Hcl Hnb (fun v Hv => proj1 (Hs v Hv)) (fun v Hv => proj2 (Hs v Hv)) Hh Hno Hi Hne) as (hs & Hrun & H0' & _ & Hk).
  exists hs. split; [exact Hrun|]. split; [exact H0'|]. intros k S v Ek Hv. apply (Hk k S Ek). exact Hv.
Qed.
Print Assumptions C104_sequential.

(** ** rule 60 in the order 1, ..., n-2 *)
Lemma ring1 n v : ring_nb n 1 v = [(v + -1) mod n; (v + 0) mod n; (v + 1) mod n].
Proof. reflexivity. Qed.

Lemma eca60 v a x y z : bit x -> bit y -> bit z -> eca 60 v a [x; y; z] = (x + y) mod 2.
Proof. intros [-> | ->] [-> | ->] [-> | ->]; reflexivity. Qed.

Lemma parity_upto_S s w : 0 <= w -> parity_upto s (w + 1) = (parity_upto s w + s (w + 1)) mod 2.
Proof.
  intros Hw. unfold parity_upto. rewrite (zrange_snoc 0 (w + 1 + 1)) by lia. replace (w + 1 + 1 - 1) with (w + 1) by lia. rewrite map_app, zsum_app. cbn [map zsum]. rewrite Z.add_0_r, Z.add_mod_idemp_l by lia. reflexivity.
Qed.
Lemma parity_upto_0 s : parity_upto s 0 = s 0 mod 2.
Proof. unfold parity_upto. change (zrange 0 (0 + 1)) with [0]. cbn [map zsum]. rewrite Z.add_0_r. reflexivity. Qed.
Lemma bit_mod2 a : bit a -> a mod 2 = a.
Proof. intros [-> | ->]; reflexivity. Qed.
Lemma mod2_bit a : bit (a mod 2).
Proof. unfold bit. pose proof (Z.mod_pos_bound a 2). lia. Qed.
Lemma parity_rounds_bit n k s w : bit (s w) -> bit (parity_rounds n k s w).
Proof.
  intros Hs. induction k as [|k IH]; [exact Hs|]. cbn [parity_rounds]. unfold parity_round. destruct ((1 <=? w) && (w <=? n - 2)); [apply mod2_bit|exact IH].
Qed.

Lemma demo_order_length n : 3 <= n -> length (demo_order n) = Z.to_nat (n - 2).
Proof. intros. unfold demo_order. rewrite length_zrange. lia. Qed.

(** in the middle of round [q] *)
Lemma sweep_from n s q : 3 <= n -> (forall w, 0 <= w < n -> bit (s w)) ->
  (forall w, 0 <= w < n -> seq_state (ring_nb n 1) (eca 60) (demo_order n) (q * Z.to_nat (n - 2)) s w = parity_rounds n q s w) ->
  forall j w, (j <= Z.to_nat (n - 2))%nat -> 0 <= w < n ->
  seq_state (ring_nb n 1) (eca 60) (demo_order n) (q * Z.to_nat (n - 2) + j) s w =
  if (1 <=? w) && (w <=? Z.of_nat j) then parity_upto (parity_rounds n q s) w else parity_rounds n q s w.
Proof.
  intros Hn Hs Hstart. set (m := Z.to_nat (n - 2)) in *. assert (HR : forall w, 0 <= w < n -> bit (parity_rounds n q s w)) by (intros w Hw; apply parity_rounds_bit, Hs, Hw).
  set (R := parity_rounds n q s) in *. induction j as [|j IH]; intros w Hj Hw.
  - rewrite Nat.add_0_r, Hstart by exact Hw. destruct (Z.leb_spec 1 w), (Z.leb_spec w (Z.of_nat 0)); cbn [andb]; try reflexivity. lia.
  - rewrite Nat.add_succ_r. cbn [seq_state]. rewrite demo_order_length by exact Hn. fold m.
    replace ((q * m + j) mod m)%nat with j by (rewrite Nat.add_comm, Nat.mod_add, Nat.mod_small by lia; reflexivity).
    unfold demo_order at 1. rewrite nth_error_zrange by lia. unfold seq_next. destruct (eqd w (1 + Z.of_nat j)) as [->|Hne].
    + rewrite ring1. cbn [map]. replace ((1 + Z.of_nat j + -1) mod n) with (Z.of_nat j) by (rewrite Z.mod_small; lia).
      replace ((1 + Z.of_nat j + 0) mod n) with (1 + Z.of_nat j) by (rewrite Z.mod_small; lia).
      replace ((1 + Z.of_nat j + 1) mod n) with (2 + Z.of_nat j) by (rewrite Z.mod_small; lia).
      rewrite !IH by lia. destruct (Z.leb_spec (1 + Z.of_nat j) (Z.of_nat j)); [lia|]. destruct (Z.leb_spec (2 + Z.of_nat j) (Z.of_nat j)); [lia|]. rewrite !andb_false_r, Z.leb_refl, andb_true_r.
      destruct (Z.leb_spec 1 (1 + Z.of_nat j)); [|lia]. destruct (Z.leb_spec (1 + Z.of_nat j) (Z.of_nat (S j))); [|lia]. cbn [andb].
      replace (1 + Z.of_nat j) with (Z.of_nat j + 1) by lia. rewrite parity_upto_S by lia. destruct (Z.leb_spec 1 (Z.of_nat j)).
      * apply eca60; [apply mod2_bit|apply HR; lia|apply HR; lia].
      * replace (Z.of_nat j) with 0 by lia. rewrite parity_upto_0, (bit_mod2 (R 0)) by (apply HR; lia). apply eca60; apply HR; lia.
    + rewrite IH by lia. destruct (Z.leb_spec 1 w), (Z.leb_spec w (Z.of_nat j)), (Z.leb_spec w (Z.of_nat (S j))); cbn [andb]; try reflexivity; lia.
Qed.

Lemma round_state n s : 3 <= n -> (forall w, 0 <= w < n -> bit (s w)) -> forall q w, 0 <= w < n ->
  seq_state (ring_nb n 1) (eca 60) (demo_order n) (q * Z.to_nat (n - 2)) s w = parity_rounds n q s w.
Proof.
  intros Hn Hs. induction q as [|q IH]; intros w Hw; [reflexivity|]. replace (S q * Z.to_nat (n - 2))%nat with (q * Z.to_nat (n - 2) + Z.to_nat (n - 2))%nat by lia.
  rewrite (sweep_from n s q Hn Hs IH) by lia. cbn [parity_rounds]. unfold parity_round. replace (Z.of_nat (Z.to_nat (n - 2))) with (n - 2) by lia. reflexivity.
Qed.

(** ** Pascal's triangle *)
Lemma binomial_0 m : binomial m 0 = 1.
Proof. destruct m; reflexivity. Qed.
Lemma binomial_SS m k : binomial (S m) (S k) = binomial m k + binomial m (S k).
Proof. reflexivity. Qed.
Lemma binomial_above m : forall k, (m < k)%nat -> binomial m k = 0.
Proof. induction m as [|m IH]; intros [|k] Hk; try lia; [reflexivity|]. rewrite binomial_SS, !IH by lia. reflexivity. Qed.
Lemma binomial_diag m : binomial m m = 1.
Proof. induction m as [|m IH]; [reflexivity|]. rewrite binomial_SS, IH, binomial_above by lia. reflexivity. Qed.

Lemma pascal_sum n p k : 0 <= p <= n - 2 -> forall i, Z.of_nat i <= n - 2 -> parity_upto (pascal_cell n p k) (Z.of_nat i) = pascal_cell n p (S k) (Z.of_nat i).
Proof.
  intros Hp. induction i as [|i IH]; intros Hi.
  - change (Z.of_nat 0) with 0. rewrite parity_upto_0. cbn [pascal_cell]. destruct (Z.leb_spec 0 (n - 2)); [|lia]. rewrite andb_true_r. destruct (Z.leb_spec p 0).
    + replace p with 0 by lia. cbn [Z.sub Z.opp Z.add Z.to_nat Nat.add]. rewrite binomial_diag. destruct k as [|k]; cbn [pascal_cell]; [reflexivity|].
      destruct (Z.leb_spec 0 (n - 2)); [|lia]. cbn [Z.leb Z.compare andb Z.sub Z.opp Z.add Z.to_nat Nat.add]. rewrite binomial_diag. reflexivity.
    + destruct k as [|k]; cbn [pascal_cell]; [destruct (Z.eqb_spec 0 p); [lia|reflexivity]|destruct (Z.leb_spec p 0); [lia|reflexivity]].
  - rewrite Nat2Z.inj_succ, <- Z.add_1_r, parity_upto_S, IH by lia. cbn [pascal_cell].
    destruct (Z.leb_spec (Z.of_nat i) (n - 2)); [|lia]. destruct (Z.leb_spec (Z.of_nat i + 1) (n - 2)); [|lia]. rewrite !andb_true_r.
    destruct (Z.leb_spec p (Z.of_nat i + 1)).
    2: { destruct (Z.leb_spec p (Z.of_nat i)); [lia|]. destruct k; cbn [pascal_cell]; [destruct (Z.eqb_spec (Z.of_nat i + 1) p); [lia|reflexivity]|]. destruct (Z.leb_spec p (Z.of_nat i + 1)); [lia|reflexivity]. }
    destruct (Z.leb_spec p (Z.of_nat i)).
    + set (d := Z.to_nat (Z.of_nat i - p)). replace (Z.to_nat (Z.of_nat i + 1 - p)) with (S d) by lia. rewrite Z.add_mod_idemp_l by lia.
      destruct k as [|k]; cbn [pascal_cell].
      * destruct (Z.eqb_spec (Z.of_nat i + 1) p); [lia|]. rewrite !binomial_0. reflexivity.
      * destruct (Z.leb_spec p (Z.of_nat i + 1)); [|lia]. destruct (Z.leb_spec (Z.of_nat i + 1) (n - 2)); [|lia]. cbn [andb]. replace (Z.to_nat (Z.of_nat i + 1 - p)) with (S d) by lia.
        rewrite Z.add_mod_idemp_r by lia. change (S d + S k)%nat with (S (d + S k)). rewrite binomial_SS. replace (S d + k)%nat with (d + S k)%nat by lia. f_equal. lia.
    + replace (Z.to_nat (Z.of_nat i + 1 - p)) with 0%nat by lia. cbn [Nat.add]. rewrite binomial_diag. destruct k as [|k]; cbn [pascal_cell].
      * destruct (Z.eqb_spec (Z.of_nat i + 1) p); [reflexivity|lia].
      * destruct (Z.leb_spec p (Z.of_nat i + 1)); [|lia]. destruct (Z.leb_spec (Z.of_nat i + 1) (n - 2)); [|lia]. cbn [andb]. replace (Z.to_nat (Z.of_nat i + 1 - p)) with 0%nat by lia. cbn [Nat.add]. rewrite binomial_diag. reflexivity.
Qed.

Lemma pascal_rounds n p s : 0 <= p <= n - 2 -> (forall w, 0 <= w < n -> s w = if w =? p then 1 else 0) ->
  forall k w, 0 <= w < n -> parity_rounds n k s w = pascal_cell n p k w.
Proof.
  intros Hp Hs. induction k as [|k IH]; intros w Hw; [apply Hs; exact Hw|]. cbn [parity_rounds]. unfold parity_round.
  destruct (Z.leb_spec 1 w), (Z.leb_spec w (n - 2)); cbn [andb].
  - replace w with (Z.of_nat (Z.to_nat w)) by lia. rewrite <- pascal_sum by lia. unfold parity_upto. do 2 f_equal. apply map_ext_in. intros v Hv. apply in_zrange in Hv. apply IH. lia.
  - rewrite IH by exact Hw. cbn [pascal_cell]. destruct (Z.leb_spec w (n - 2)); [lia|]. rewrite andb_false_r. destruct k; cbn [pascal_cell]; [destruct (Z.eqb_spec w p); [lia|reflexivity]|]. destruct (Z.leb_spec w (n - 2)); [lia|]. rewrite andb_false_r. reflexivity.
  - assert (w = 0) by lia. subst w. rewrite IH by exact Hw. cbn [pascal_cell]. destruct (Z.leb_spec 0 (n - 2)); [|lia]. rewrite andb_true_r. destruct (Z.leb_spec p 0).
    + replace p with 0 by lia. cbn [Z.sub Z.opp Z.add Z.to_nat Nat.add]. rewrite binomial_diag. destruct k as [|k]; cbn [pascal_cell]; [reflexivity|].
      destruct (Z.leb_spec 0 (n - 2)); [|lia]. cbn [Z.leb Z.compare andb Z.sub Z.opp Z.add Z.to_nat Nat.add]. rewrite binomial_diag. reflexivity.
    + destruct k as [|k]; cbn [pascal_cell]; [destruct (Z.eqb_spec 0 p); [lia|reflexivity]|destruct (Z.leb_spec p 0); [lia|reflexivity]].
  - lia.
Qed.

(** ** the runs *)
Section Ring.
  Context {U I BA BN : Type}.
  Notation env := (env Z Z Z BA BN).
  Notation args := (@args Z Z Z (U * async Z) I).

  Lemma demo_order_ok n : 3 <= n -> NoDup (demo_order n) /\ (forall v, In v (demo_order n) -> 0 <= v < n) /\ demo_order n <> [].
  Proof.
    intros Hn. split; [apply NoDup_zrange|]. split; [intros v Hv; apply in_zrange in Hv; lia|]. intros E. pose proof (demo_order_length n Hn) as El. rewrite E in El. cbn in El. lia.
  Qed.

  Lemma seq60 (W : env) shuffle fuel (u0 : U) n c T (g : args) (s : Z -> Z) : 3 <= n ->
    static g (async_call shuffle false (stateless (nks_ca_rule 60))) -> 1 <= T -> (Z.to_nat T <= fuel)%nat -> Z.of_nat (length (to_dict W c)) = n ->
    (forall v, 0 <= v < n -> dget (to_dict W c) v = Some (s v) /\ bit (s v)) ->
    exists net hs, cellular_automaton n 1 true = Ok net /\ runs W fuel (u0, mkAsync (demo_order n) 0 0 0) net c T g hs /\ nth_error hs 0 = Some (to_dict W c) /\
      (forall k S, nth_error hs (Datatypes.S k) = Some S -> NoDup (dkeys S) /\ forall v, In v (dkeys S) <-> 0 <= v < n) /\
      forall k S v, nth_error hs k = Some S -> 0 <= v < n -> dget S v = Some (seq_state (ring_nb n 1) (eca 60) (demo_order n) k s v).
  Proof.
    intros Hn Hst HT Hf Hl Hs. destruct (ring_lattice n 1 Hn ltac:(lia) ltac:(lia)) as (net & E & Hlat). exists net. pose proof Hlat as (Hnd & Hnodes & Hcl & Hlen & Hnb & Hub).
    destruct (demo_order_ok n Hn) as (O1 & O2 & O3).
    destruct (seq_run W shuffle fuel u0 (demo_order n) net (ring_nb n 1) c T g (nks_ca_rule 60) (eca 60) bit s Hst Hnd HT Hf) as (hs & Hrun & Hz & Hk & Hv).
    - lia.
    - exact Hcl.
    - intros v Hv. apply Hnb, Hnodes. exact Hv.
    - intros v Hv. apply Hs, Hnodes. exact Hv.
    - intros v Hv. apply Hs, Hnodes. exact Hv.
    - intros x Hx Hc Ha Hla. split; [|apply bit_eca]. apply C30_testbit; [exact Ha|]. rewrite Hla, length_ring_nb by lia. vm_compute. split; congruence.
    - exact O1.
    - intros v Hv. apply Hnodes, O2, Hv.
    - exact O3.
    - exists hs. split; [exact E|]. split; [exact Hrun|]. split; [exact Hz|]. split.
      + intros k S Ek. unfold dkeys. rewrite (Hk k S Ek). split; [exact Hnd|exact Hnodes].
      + intros k S v Ek Hvr. apply (Hv k S Ek), Hnodes, Hvr.
  Qed.

  (** after [q] complete rounds and [j] more steps: the cells 1 .. j hold the running parity of the state after [q] rounds *)
  Theorem C104_rule60_parity : forall (W : env) shuffle fuel (u0 : U) n a c T (g : args), 3 <= n ->
    static g (async_call shuffle false (stateless (nks_ca_rule 60))) -> async_init shuffle (Some (demo_order n)) None = Ok a ->
    1 <= T -> (Z.to_nat T <= fuel)%nat -> config W n bit c ->
    exists net hs, cellular_automaton n 1 true = Ok net /\ runs W fuel (u0, a) net c T g hs /\
      forall q j S v, nth_error hs (q * Z.to_nat (n - 2) + j) = Some S -> (j <= Z.to_nat (n - 2))%nat -> 0 <= v < n ->
        let before := parity_rounds n q (read (to_dict W c)) in
        dget S v = Some (if (1 <=? v) && (v <=? Z.of_nat j) then parity_upto before v else before v).
  Proof.
    intros W shuffle fuel u0 n a c T g Hn Hst Ea HT Hf Hc. cbn in Ea. injection Ea as <-. pose proof (read_config W n c Hc) as Hs.
    destruct (seq60 W shuffle fuel u0 n c T g (read (to_dict W c)) Hn Hst HT Hf (proj1 Hc) Hs) as (net & hs & E & Hrun & _ & _ & Hk).
    exists net, hs. split; [exact E|]. split; [exact Hrun|]. intros q j S v Ek Hj Hv before. rewrite (Hk _ _ _ Ek Hv). f_equal.
    assert (Hb : forall w, 0 <= w < n -> bit (read (to_dict W c) w)) by (intros w Hw; apply Hs, Hw).
    apply sweep_from; [exact Hn|exact Hb|apply round_state; assumption|exact Hj|exact Hv].
  Qed.
End Ring.

(** ** the demo *)
Lemma stride_nth {X} m (l : list X) : (1 <= m)%nat -> forall i k, nth_error (stride m i l) k = nth_error l (i + k * m).
Proof.
  intros Hm. induction l as [|x l IH]; intros i k; [destruct k, (i + _ * m)%nat; reflexivity|]. destruct i as [|i]; cbn [stride].
  - destruct k as [|k]; [reflexivity|]. cbn [nth_error]. rewrite IH. replace (0 + S k * m)%nat with (S (m - 1 + k * m)) by lia. reflexivity.
  - rewrite IH. reflexivity.
Qed.

(** [R] rounds of a ring of p + 1 + q cells, started with a single 1 at p; the demo has p = q = 10 and R = 20 *)
Theorem C104_demo : forall {U I BA BN} (W : env Z Z Z BA BN) shuffle fuel (u0 : U) (p q R : nat) a (g : @args Z Z Z (U * async Z) I),
  (3 <= p + 1 + q)%nat -> (1 <= q)%nat -> (1 <= R)%nat -> (forall i, e_lab W i = Z.of_nat i) ->
  let n := Z.of_nat (p + 1 + q) in let T := (n - 2) * Z.of_nat R in
  static g (async_call shuffle false (stateless (nks_ca_rule 60))) -> async_init shuffle (Some (demo_order n)) None = Ok a -> (Z.to_nat T <= fuel)%nat ->
  exists net uf traj activities, cellular_automaton n 1 true = Ok net /\
    evolve W fuel (u0, a) net (Some (CList (repeat 0 p ++ [1] ++ repeat 0 q))) (Some T) None g = Ok (uf, traj) /\
    get_activities_over_time_as_list W Z.leb traj = Ok activities /\ Z.of_nat (length activities) = T /\
    stride (Z.to_nat (n - 2)) 0 activities = map (fun k => map (pascal_cell n (Z.of_nat p) k) (zrange 0 n)) (seq 0 R).
Proof.
  intros U I BA BN W shuffle fuel u0 p q R a g Hp Hq HR Hlab n T Hst Ea Hf. cbn in Ea. injection Ea as <-.
  set (tape := repeat 0 p ++ [1] ++ repeat 0 q) in *. assert (Htl : Z.of_nat (length tape) = n) by (unfold tape, n; rewrite !app_length, !repeat_length; cbn [length]; lia).
  assert (Hn : 3 <= n) by (unfold n; lia). assert (HT : 1 <= T) by (unfold T; nia).
  set (s := fun w => if w =? Z.of_nat p then 1 else 0 : Z).
  assert (Htape : forall v, 0 <= v < n -> nth_error tape (Z.to_nat v) = Some (s v)).
  { intros v Hv. unfold s, tape. destruct (Z.eqb_spec v (Z.of_nat p)) as [->|Hne].
    - rewrite Nat2Z.id, nth_error_app2, repeat_length, Nat.sub_diag by (rewrite repeat_length; lia). reflexivity.
    - destruct (Z.ltb_spec v (Z.of_nat p)).
      + rewrite nth_error_app1 by (rewrite repeat_length; lia). apply nth_error_repeat. lia.
      + rewrite nth_error_app2 by (rewrite repeat_length; lia). rewrite repeat_length, nth_error_app2 by (cbn; lia). apply nth_error_repeat. cbn [length]. unfold n in Hv. lia. }
  pose proof (shows_list W tape Hlab) as (S1 & S2 & S3).
  destruct (seq60 W shuffle fuel u0 n (CList tape) T g s Hn Hst HT Hf) as (net & hs & E & (uf & traj & Ev & Hl & Hshow) & Hz & Hkeys & Hk).
  - rewrite <- Htl. cbn [to_dict]. unfold enumerate. rewrite map_length, combine_length, seq_length. lia.
  - intros v Hv. split; [rewrite S3 by (rewrite Htl; exact Hv); apply Htape; exact Hv|]. unfold s, bit. destruct (v =? Z.of_nat p); auto.
  - set (st := fun k => seq_state (ring_nb n 1) (eca 60) (demo_order n) k s).
    set (rows := map (fun k => map (st k) (zrange 0 n)) (seq 0 (length hs))).
    assert (Hrl : length rows = length hs) by (unfold rows; rewrite map_length, seq_length; reflexivity).
    assert (Hrk : forall k, (k < length hs)%nat -> nth_error rows k = Some (map (st k) (zrange 0 n))).
    { intros k Hlt. unfold rows. rewrite nth_error_map, (nth_error_nth' _ 0%nat), seq_nth by (rewrite ?seq_length; exact Hlt). reflexivity. }
    assert (Hrlen : forall k, Z.of_nat (length (map (st k) (zrange 0 n))) = n) by (intros k; rewrite map_length, length_zrange; lia).
    assert (Hsh : Forall2 (fun d r => shows d r) hs rows).
    { apply Forall2_nth_intro; [symmetry; exact Hrl|]. intros k d r Ed Er. assert (Hlt : (k < length hs)%nat) by (apply nth_error_Some; congruence).
      rewrite (Hrk k Hlt) in Er. injection Er as <-. unfold shows. rewrite Hrlen.
      assert (Hd : NoDup (dkeys d) /\ forall v, In v (dkeys d) <-> 0 <= v < n).
      { destruct k as [|k]; [rewrite Hz in Ed; injection Ed as <-; rewrite <- Htl; split; [exact S1|exact S2]|apply (Hkeys k d Ed)]. }
      destruct Hd as [D1 D2]. split; [exact D1|]. split; [exact D2|]. intros v Hv. rewrite (Hk k d v Ed Hv), nth_error_map, nth_error_zrange by lia. cbn [option_map]. unfold st. do 2 f_equal. lia. }
    exists net, uf, traj, rows. split; [exact E|]. split; [exact Ev|]. split.
    + rewrite (shows_rows (Q := unit) W traj hs (map (mkConf tt 0) rows) Hshow).
      * rewrite map_map. cbn [cf_tape]. rewrite map_id. reflexivity.
      * clear - Hsh. induction Hsh; constructor; auto.
      * apply Forall_forall. intros c Hc. apply in_map_iff in Hc. destruct Hc as (r & <- & Hr). cbn [cf_tape]. unfold rows in Hr. apply in_map_iff in Hr. destruct Hr as (k & <- & _).
        intros En. pose proof (Hrlen k) as Hx. rewrite En in Hx. cbn in Hx. lia.
    + split; [lia|]. apply nth_error_ext. intros k. rewrite stride_nth by lia. cbn [Nat.add]. rewrite nth_error_map.
      assert (Hm : Z.of_nat (length hs) = Z.of_nat (Z.to_nat (n - 2) * R)) by (rewrite Hl; unfold T; nia).
      destruct (Nat.lt_ge_cases k R) as [Hlt|Hge].
      * rewrite Hrk by nia. rewrite (nth_error_nth' _ 0%nat), seq_nth by (rewrite ?seq_length; exact Hlt). cbn [option_map Nat.add]. f_equal. apply map_ext_in. intros v Hv. apply in_zrange in Hv.
        unfold st. rewrite round_state; [|exact Hn| |exact Hv]; [|intros w _; unfold s, bit; destruct (w =? Z.of_nat p); auto].
        apply pascal_rounds; [unfold n; lia|reflexivity|exact Hv].
      * rewrite (proj2 (nth_error_None rows _)) by nia. rewrite (proj2 (nth_error_None (seq 0 R) k)) by (rewrite seq_length; exact Hge). reflexivity.
Qed.
Print Assumptions C104_rule60_parity.
Print Assumptions C104_demo.

(** ** Examples *)
Definition g_seq (N : Z) : @args Z Z Z (Z * async Z) Z := base_async (async_call no_shuffle false (stateless (nks_ca_rule N))).
Definition seq_rows (n T : Z) (l : list Z) (m : nat) : res (list (list Z)) :=
  net <- cellular_automaton n 1 true ;; ' (_, traj) <- evolve W0 (Z.to_nat T) (0, mkAsync (demo_order n) 0 0 0) net (Some (CList l)) (Some T) None (g_seq 60) ;;
  rows <- get_activities_over_time_as_list W0 Z.leb traj ;; Ok (stride m 0 rows).

(** nine cells, five rounds, every seventh row *)
Example C104_nonvacuous : static (g_seq 60) (async_call no_shuffle false (stateless (nks_ca_rule 60))) /\
  async_init no_shuffle (Some (demo_order 9)) None = Ok (mkAsync (demo_order 9) 0 0 0) /\ config W0 9 bit (CList [0; 0; 1; 0; 0; 0; 0; 0; 0]) /\
  seq_rows 9 35 [0; 0; 1; 0; 0; 0; 0; 0; 0] 7 = Ok [[0; 0; 1; 0; 0; 0; 0; 0; 0]; [0; 0; 1; 1; 1; 1; 1; 1; 0]; [0; 0; 1; 0; 1; 0; 1; 0; 0]; [0; 0; 1; 1; 0; 0; 1; 1; 0]; [0; 0; 1; 0; 0; 0; 1; 0; 0]] /\
  map (fun k => map (pascal_cell 9 2 k) (zrange 0 9)) (seq 0 5) = [[0; 0; 1; 0; 0; 0; 0; 0; 0]; [0; 0; 1; 1; 1; 1; 1; 1; 0]; [0; 0; 1; 0; 1; 0; 1; 0; 0]; [0; 0; 1; 1; 0; 0; 1; 1; 0]; [0; 0; 1; 0; 0; 0; 1; 0; 0]].
Proof.
  split; [unfold static; splits; reflexivity|]. split; [reflexivity|]. split.
  - split; [reflexivity|]. intros v Hv. assert (Hc : v = 0 \/ v = 1 \/ v = 2 \/ v = 3 \/ v = 4 \/ v = 5 \/ v = 6 \/ v = 7 \/ v = 8) by lia.
    decompose [or] Hc; subst; cbn; eexists; (split; [reflexivity|]); unfold bit; auto.
  - split; vm_compute; reflexivity.
Qed.

(** a 1 in the last cell stays where it is: the triangle needs a cell to the right of p *)
Theorem C104_last_cell_refuted : exists n R rows, seq_rows n ((n - 2) * Z.of_nat R) [0; 0; 0; 1] (Z.to_nat (n - 2)) = Ok rows /\
  rows <> map (fun k => map (pascal_cell n 3 k) (zrange 0 n)) (seq 0 R).
Proof. exists 4, 2%nat. eexists. split; [vm_compute; reflexivity|]. vm_compute. discriminate. Qed.

(** the order matters: a round is not a synchronous step of rule 60 *)
Theorem C104_not_synchronous_refuted : exists n rows net uf traj row, seq_rows n ((n - 2) * 2) [0; 1; 0; 0; 0] (Z.to_nat (n - 2)) = Ok rows /\
  cellular_automaton n 1 true = Ok net /\ evolve W0 2 0 net (Some (CList [0; 1; 0; 0; 0])) (Some 2) None (g_eca 60) = Ok (uf, traj) /\
  (rs <- get_activities_over_time_as_list W0 Z.leb traj ;; of_opt IndexError (nth_error rs 1)) = Ok row /\ nth_error rows 1 <> Some row.
Proof.
  exists 5. eexists. eexists. eexists. eexists. eexists. split; [vm_compute; reflexivity|]. split; [vm_compute; reflexivity|]. split; [vm_compute; reflexivity|]. split; [vm_compute; reflexivity|]. vm_compute. discriminate.
Qed.
