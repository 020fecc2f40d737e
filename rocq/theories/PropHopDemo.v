(** * C126: what a Hopfield net recalls, and the Hopfield net demo *)
From Verif Require Import Py PyFacts ListFacts Network NetworkSpec NetworkProofs Topology TopologySpec TopologyProofs TopologyProofs2 Evolve EvolveSpec EvolveProofs EvolveStatic Async AsyncProofs CaSpec CaRun.
From Verif Require Import Hopfield HopfieldSpec HopfieldProofs HopfieldProofs2 PropHopfield Utils PropUtils PropReversible RevSpec TuringProofs2 SeqSpec PropSeq HopMemSpec HopRun HopRecall HopDemo.
Open Scope string_scope.
Open Scope list_scope.
Open Scope Z_scope.

Lemma stride_rows {X} (f : nat -> X) n times : (1 <= n)%nat -> stride n 0 (map f (seq 0 (n * times))) = map (fun r => f (r * n)%nat) (seq 0 times).
Proof.
  intros Hn. apply nth_error_ext. intros k. rewrite stride_nth by exact Hn. cbn [Nat.add]. rewrite !nth_error_map. destruct (Nat.lt_ge_cases k times) as [Hk|Hk].
  - rewrite (nth_error_nth' (seq 0 (n * times)) 0%nat), (nth_error_nth' (seq 0 times) 0%nat), !seq_nth by (rewrite ?seq_length; nia). reflexivity.
  - rewrite (proj2 (nth_error_None (seq 0 (n * times)) _)), (proj2 (nth_error_None (seq 0 times) _)) by (rewrite seq_length; nia). reflexivity.
Qed.

(** the shuffle whose d-th outcome has [cs d] in the place that is read *)
Definition planned (cs : nat -> Z) (d k : nat) : list Z := map (fun j => (j + (cs d - Z.of_nat (d mod k))) mod Z.of_nat k) (zrange 0 (Z.of_nat k)).
Lemma planned_perm cs d k : Permutation (planned cs d k) (zrange 0 (Z.of_nat k)).
Proof.
  destruct k as [|k]; [reflexivity|]. unfold planned. set (o := cs d - _). set (m := Z.of_nat (S k)). assert (Hm : 0 < m) by (unfold m; lia).
  apply NoDup_Permutation_bis.
  - apply (NoDup_map_inv (fun x => (x - o) mod m)). rewrite map_map. rewrite (map_ext_in _ (fun x => x)); [rewrite map_id; apply NoDup_zrange|].
    intros j Hj. apply in_zrange in Hj. rewrite Zminus_mod_idemp_l. replace (j + o - o) with j by lia. apply Z.mod_small. exact Hj.
  - rewrite map_length. reflexivity.
  - intros x Hx. apply in_map_iff in Hx. destruct Hx as (j & <- & _). apply in_zrange. pose proof (Z.mod_pos_bound (j + o) m Hm). lia.
Qed.
Lemma planned_turn cs n k : (0 < n)%nat -> 0 <= cs k < Z.of_nat n -> turn (planned cs) n k = cs k.
Proof.
  intros Hn Hc. unfold turn, planned. assert (Hk : (k mod n < n)%nat) by (apply Nat.mod_upper_bound; lia).
  apply nth_error_nth. rewrite nth_error_map, nth_error_zrange by lia. cbn [option_map]. f_equal. replace (0 + Z.of_nat (k mod n) + (cs k - Z.of_nat (k mod n))) with (cs k) by lia. apply Z.mod_small, Hc.
Qed.

(** the first pattern has n components and none has more; every index has a non-zero weight *)
Definition trainable (n : nat) (P : list (list Z)) : Prop :=
  (exists p0, nth_error P 0 = Some p0 /\ length p0 = n) /\ Forall (fun q => (length q <= n)%nat) P /\
  forall i, 0 <= i < Z.of_nat n -> exists j, 0 <= j < Z.of_nat n /\ hebb P i j <> 0.
Definition shuffles (shuffle : nat -> nat -> list Z) : Prop := forall d k, Permutation (shuffle d k) (zrange 0 (Z.of_nat k)).

Section Demo.
  Context {I BA BN : Type} (W : env Z Z Z BA BN).
  Hypothesis Hlab : forall i, e_lab W i = Z.of_nat i.

  (** any start, any outcome of the shuffles *)
  Lemma demo_run shuffle n P v0 times fuel : (1 <= n)%nat -> trainable n P -> length v0 = n -> shuffles shuffle -> (1 <= times)%nat -> (n * times <= fuel)%nat ->
    exists M, mrep (Z.of_nat n) M (hebb P) /\
      let st := fun t => by_turns (sign_of (Z.of_nat n) (hebb P)) (fun k => Some (turn shuffle n k)) t (at0 v0) in
      hopfield_net_demo (I := I) W fuel shuffle n P v0 times =
        Ok (M, map (fun t => map (st t) (zrange 0 (Z.of_nat n))) (seq 0 (n * times)), map (fun r => map (st (r * n)%nat) (zrange 0 (Z.of_nat n))) (seq 0 times)).
  Proof.
    intros Hn ((p0 & E0 & Hp0) & Hall & Hconn) Hl Hsh Ht Hf. set (m := Z.of_nat n).
    destruct (train_ok P p0 E0) as (M & net & Et & HM & HR & Hrot); [rewrite Hp0; exact Hall|]. rewrite Hp0 in HM. fold m in HM.
    exists M. split; [exact HM|]. intros st.
    assert (Hnode : forall v, In v (nodes net) <-> 0 <= v < m).
    { intros v. rewrite (net_node m (hebb P) M net HM HR v). split; [tauto|]. intros Hv. split; [assumption|]. destruct (Hconn v Hv) as (j & Hj & Hw). eauto. }
    assert (Hnd := net_nodup M net HR).
    assert (Hperm : Permutation (nodes net) (zrange 0 m)).
    { apply NoDup_Permutation; [assumption|apply NoDup_zrange|]. intros v. rewrite Hnode, in_zrange. lia. }
    assert (Enl : length (nodes net) = n) by (rewrite (Permutation_length Hperm), length_zrange; unfold m; lia).
    assert (El : net_len net = n) by (rewrite <- Enl; unfold nodes, dkeys, net_len; symmetry; apply map_length).
    pose proof (shows_list W v0 Hlab) as (S1 & S2 & S3). rewrite Hl in S2, S3. fold m in S2, S3.
    destruct (rand_run (I := I) W shuffle fuel tt net (CList v0) (Z.of_nat (n * times)) (hop_demo_args shuffle) hopfield_rule (sign_of m (hebb P)) (at0 v0)) as (hs & (uf & traj & Ev & Hlh & Hshow) & Hz & Hkeys & Hk).
    - repeat split; reflexivity.
    - exact Hnd.
    - intros E. rewrite E in Enl. cbn in Enl. lia.
    - nia.
    - lia.
    - cbn [to_dict]. unfold enumerate. rewrite map_length, combine_length, seq_length. lia.
    - intros v Hv. eexists. eexists. split; [apply (net_in_edges m (hebb P) M net HM HR v Hv)|]. split.
      + unfold nbrs_of. rewrite Hrot. eexists. split; [apply (net_in_edges m (hebb P) M net HM HR v Hv)|reflexivity].
      + intros j Hj. apply in_map_iff in Hj. destruct Hj as (y & <- & Hy). apply in_map_iff in Hy. destruct Hy as (i & <- & Hi). apply filter_In in Hi. destruct Hi as [Hi _]. apply in_zrange in Hi. apply Hnode. cbn [fst]. lia.
    - intros v Hv. apply Hnode in Hv. rewrite S3 by exact Hv. unfold at0. apply nth_error_nth'. unfold m in Hv. lia.
    - intros S t past v x s' Hv Hx Hs'. apply (rule_field m (hebb P) M net HM HR Hrot W S s' t past (InStr "__timestep__") v x Hv Hx). intros i Hi. apply Hs', Hnode, Hi.
    - intros d. rewrite Enl. rewrite Hperm. apply Hsh.
    - rewrite Enl in *. unfold hopfield_net_demo, hopfield_init, async_init. cbn [rbind]. rewrite Et. cbn [rbind]. rewrite Ev. cbn [rbind].
      assert (Ebt : forall t v, by_turns (sign_of m (hebb P)) (fun k => nth_error (shuffle k n) (k mod n)) t (at0 v0) v = st t v).
      { intros t v. unfold st. enough (Ex : by_turns (sign_of m (hebb P)) (fun k => nth_error (shuffle k n) (k mod n)) t (at0 v0) = by_turns (sign_of m (hebb P)) (fun k => Some (turn shuffle n k)) t (at0 v0)) by (rewrite Ex; reflexivity).
        clear - Hsh Hn. induction t as [|t IH]; [reflexivity|]. cbn [by_turns]. rewrite IH. unfold turn. rewrite (nth_error_nth' (shuffle t n) 0); [reflexivity|].
        rewrite (Permutation_length (Hsh t n)), length_zrange. pose proof (Nat.mod_upper_bound t n ltac:(lia)). lia. }
      rewrite (read_rows W traj hs m st ltac:(unfold m; lia) Hshow).
      + cbn [rbind]. replace (length hs) with (n * times)%nat by lia. unfold rows, row. rewrite stride_rows by exact Hn. reflexivity.
      + intros [|t] S Ek; [rewrite Hz in Ek; injection Ek as <-; split; assumption|]. unfold dkeys. rewrite (Hkeys t S Ek). split; assumption.
      + intros t S v Ek Hv. rewrite (Hk t S Ek v (proj2 (Hnode v) Hv)), Ebt. reflexivity.
  Qed.

  Lemma turn_range shuffle n k : (1 <= n)%nat -> shuffles shuffle -> 0 <= turn shuffle n k < Z.of_nat n.
  Proof.
    intros Hn Hsh. assert (Hin : In (turn shuffle n k) (zrange 0 (Z.of_nat n))).
    { eapply Permutation_in; [apply (Hsh k n)|]. apply nth_In. rewrite (Permutation_length (Hsh k n)), length_zrange. pose proof (Nat.mod_upper_bound k n ltac:(lia)). lia. }
    apply in_zrange in Hin. lia.
  Qed.

  (** C126. If the start is secure, every node that has a turn gets its value in [p] and keeps it: the states are known for every outcome of the shuffles *)
  Theorem C126_recall : forall shuffle n P p v0 times fuel, trainable n P -> bipolar p -> length p = n -> bipolar v0 -> length v0 = n -> secure (Z.of_nat n) (hebb P) p v0 ->
    shuffles shuffle -> (1 <= n)%nat -> (1 <= times)%nat -> (n * times <= fuel)%nat ->
    exists M, is_square (Z.of_nat n) M /\ (forall i j, 0 <= i < Z.of_nat n -> 0 <= j < Z.of_nat n -> at_ M i j = Some (hebb P i j)) /\
      let row := fun t => map (recalled (turn shuffle n) p v0 t) (zrange 0 (Z.of_nat n)) in
      hopfield_net_demo (I := I) W fuel shuffle n P v0 times = Ok (M, map row (seq 0 (n * times)), map (fun r => row (r * n)%nat) (seq 0 times)).
  Proof.
    intros shuffle n P p v0 times fuel Htr Hp Hpl Hv Hvl Hsec Hsh Hn Ht Hf. destruct (demo_run shuffle n P v0 times fuel Hn Htr Hvl Hsh Ht Hf) as (M & [HM1 HM2] & E). exists M. split; [exact HM1|]. split; [exact HM2|].
    intros row. rewrite E. assert (Er : forall t, map (by_turns (sign_of (Z.of_nat n) (hebb P)) (fun k => Some (turn shuffle n k)) t (at0 v0)) (zrange 0 (Z.of_nat n)) = row t).
    { intros t. unfold row. apply map_ext_in. intros i Hi. apply in_zrange in Hi. apply turns_recalled; try assumption; try lia; [apply hebb_sym|]. intros k. split; [reflexivity|apply turn_range; assumption]. }
    do 2 f_equal; [f_equal|]; apply map_ext; intros t; apply Er.
  Qed.

  (** the pattern is complete as soon as every node that was wrong has had a turn, not before *)
  Theorem C126_complete : forall turns n p v0 t, length p = n -> (map (recalled turns p v0 t) (zrange 0 (Z.of_nat n)) = p <-> forall i, 0 <= i < Z.of_nat n -> at0 p i <> at0 v0 i -> exists k, (k < t)%nat /\ turns k = i).
  Proof.
    intros turns n p v0 t Hl. assert (Hpt : forall i, 0 <= i < Z.of_nat n -> nth_error p (Z.to_nat i) = Some (at0 p i)) by (intros i Hi; unfold at0; apply nth_error_nth'; lia). split.
    - intros E i Hi Hne. assert (Ei : recalled turns p v0 t i = at0 p i).
      { rewrite <- (at0_map (Z.of_nat n) (recalled turns p v0 t) i Hi). rewrite E. reflexivity. }
      unfold recalled in Ei. destruct (existsb (fun k => turns k =? i) (seq 0 t)) eqn:Ex; [|congruence]. apply existsb_exists in Ex. destruct Ex as (k & Hk & Ek). apply in_seq in Hk. exists k. split; [lia|]. apply Z.eqb_eq. exact Ek.
    - intros H. apply nth_error_ext. intros j. rewrite nth_error_map. destruct (Nat.lt_ge_cases j n) as [Hj|Hj].
      + rewrite nth_error_zrange by lia. cbn [option_map]. specialize (Hpt (Z.of_nat j) ltac:(lia)). rewrite Nat2Z.id in Hpt. rewrite Hpt. f_equal. rewrite Z.add_0_l. unfold recalled.
        destruct (existsb (fun k => turns k =? Z.of_nat j) (seq 0 t)) eqn:Ex; [reflexivity|]. destruct (Z.eq_dec (at0 p (Z.of_nat j)) (at0 v0 (Z.of_nat j))) as [He|Hne]; [congruence|].
        destruct (H (Z.of_nat j) ltac:(lia) Hne) as (k & Hk & Ek). assert (Hx : existsb (fun k => turns k =? Z.of_nat j) (seq 0 t) = true); [|congruence]. apply existsb_exists. exists k. split; [apply in_seq; lia|apply Z.eqb_eq; exact Ek].
      + rewrite (proj2 (nth_error_None (zrange _ _) j)) by (rewrite length_zrange; lia). symmetry. apply nth_error_None. lia.
  Qed.

  (** the condition cannot be weakened: from any other start, some outcome of the shuffles draws a node away from [p] *)
  Theorem C126_sharp : forall n P p v0, trainable n P -> bipolar p -> length p = n -> bipolar v0 -> length v0 = n -> (1 <= n)%nat -> ~ secure (Z.of_nat n) (hebb P) p v0 ->
    exists shuffle times, shuffles shuffle /\ (1 <= times)%nat /\ forall fuel, (n * times <= fuel)%nat ->
      exists M activities frames t row i, hopfield_net_demo (I := I) W fuel shuffle n P v0 times = Ok (M, activities, frames) /\ nth_error activities t = Some row /\
        0 <= i < Z.of_nat n /\ at0 row i <> recalled (turn shuffle n) p v0 t i.
  Proof.
    intros n P p v0 Htr Hp Hpl Hv Hvl Hn Hns. set (m := Z.of_nat n) in *. set (w := hebb P) in *.
    set (okb := fun i => (0 <? slack m w p v0 i) || (slack m w p v0 i =? 0) && (at0 p i =? 1)).
    assert (Hi : exists i, 0 <= i < m /\ okb i = false).
    { destruct (forallb okb (zrange 0 m)) eqn:Ef.
      - exfalso. apply Hns. intros i Hi. rewrite forallb_forall in Ef. specialize (Ef i ltac:(apply in_zrange; exact Hi)). unfold okb in Ef. apply orb_true_iff in Ef. destruct Ef as [Ef|Ef]; [left; apply Z.ltb_lt; exact Ef|].
        apply andb_true_iff in Ef. destruct Ef as [Ea Eb]. right. split; apply Z.eqb_eq; assumption.
      - assert (Hex : existsb (fun i => negb (okb i)) (zrange 0 m) = true).
        { destruct (existsb (fun i => negb (okb i)) (zrange 0 m)) eqn:Ex; [reflexivity|]. assert (forallb okb (zrange 0 m) = true); [|congruence]. apply forallb_forall. intros i Hi. destruct (okb i) eqn:Eo; [reflexivity|].
          assert (existsb (fun i => negb (okb i)) (zrange 0 m) = true); [|congruence]. apply existsb_exists. exists i. rewrite Eo. auto. }
        apply existsb_exists in Hex. destruct Hex as (i & Hi & Ei). apply in_zrange in Hi. exists i. split; [lia|]. destruct (okb i); [discriminate|reflexivity]. }
    destruct Hi as (i & Hi & Eo). set (first := filter (fun j => negb (at0 p j =? at0 v0 j) && (pull w p i j <=? 0)) (zrange 0 m)). set (T := length first).
    set (cs := fun k => nth k first i).
    assert (Hcs : forall k, 0 <= cs k < m).
    { intros k. unfold cs. destruct (Nat.lt_ge_cases k (length first)) as [Hk|Hk]; [|rewrite nth_overflow by exact Hk; exact Hi]. pose proof (nth_In first i Hk) as Hin. unfold first in Hin at 2. apply filter_In in Hin. destruct Hin as [Hin _]. apply in_zrange in Hin. lia. }
    exists (planned cs), (S (S T)). split; [intros d k; apply planned_perm|]. split; [lia|]. intros fuel Hf.
    destruct (demo_run (planned cs) n P v0 (S (S T)) fuel Hn Htr Hvl ltac:(intros d k; apply planned_perm) ltac:(lia) Hf) as (M & _ & E). cbv zeta in E. fold m w in E.
    set (st := fun t => by_turns (sign_of m w) (fun k => Some (turn (planned cs) n k)) t (at0 v0)) in *.
    assert (Hturn : forall k, turn (planned cs) n k = cs k) by (intros k; apply planned_turn; [lia|apply Hcs]).
    assert (Hrow : forall t, (t < n * S (S T))%nat -> nth_error (map (fun t => map (st t) (zrange 0 m)) (seq 0 (n * S (S T)))) t = Some (map (st t) (zrange 0 m))).
    { intros t Ht. rewrite nth_error_map, (nth_error_nth' (seq 0 (n * S (S T))) 0%nat), seq_nth by (rewrite ?seq_length; exact Ht). reflexivity. }
    exists M. eexists. eexists. destruct (forallb (fun j => st T j =? recalled (turn (planned cs) n) p v0 T j) (zrange 0 m)) eqn:Ea.
    - exists (S T). eexists. exists i. split; [exact E|]. split; [apply Hrow; nia|]. split; [exact Hi|]. rewrite at0_map by exact Hi. rewrite recalled_S, Hturn.
      assert (EcT : cs T = i) by (unfold cs, T; apply nth_overflow; lia). rewrite EcT, Z.eqb_refl. unfold st. cbn [by_turns]. fold (st T). rewrite Hturn, EcT. destruct (eqd i i); [|congruence].
      rewrite forallb_forall in Ea.
      assert (Est : forall j, 0 <= j < m -> st T j = if at0 p j =? at0 v0 j then at0 p j else if 0 <? pull w p i j then at0 v0 j else at0 p j).
      { intros j Hj. specialize (Ea j ltac:(apply in_zrange; exact Hj)). apply Z.eqb_eq in Ea. rewrite Ea. unfold recalled. destruct (Z.eqb_spec (at0 p j) (at0 v0 j)) as [Ej|Nj]; [destruct (existsb _ _); congruence|].
        destruct (existsb (fun k => turn (planned cs) n k =? j) (seq 0 T)) eqn:Ex.
        - apply existsb_exists in Ex. destruct Ex as (k & Hk & Ek). apply in_seq in Hk. rewrite Hturn in Ek. apply Z.eqb_eq in Ek. unfold cs in Ek. pose proof (nth_In first i (n := k) ltac:(lia)) as Hin. rewrite Ek in Hin. unfold first in Hin. apply filter_In in Hin.
          destruct Hin as [_ Hin]. apply andb_true_iff in Hin. destruct Hin as [_ Hin]. destruct (Z.ltb_spec 0 (pull w p i j)); [apply Z.leb_le in Hin; lia|reflexivity].
        - destruct (Z.ltb_spec 0 (pull w p i j)) as [Hpos|Hpos]; [reflexivity|]. exfalso. assert (Hin : In j first).
          { unfold first. apply filter_In. split; [apply in_zrange; exact Hj|]. destruct (Z.eqb_spec (at0 p j) (at0 v0 j)); [contradiction|]. apply Z.leb_le. exact Hpos. }
          destruct (In_nth first j i Hin) as (k & Hk & Ek). assert (existsb (fun k => turn (planned cs) n k =? j) (seq 0 T) = true); [|congruence]. apply existsb_exists. exists k. split; [apply in_seq; unfold T; lia|]. rewrite Hturn. apply Z.eqb_eq. exact Ek. }
      unfold sign_of. assert (Efl : field m w (st T) i = field m w (fun j => if at0 p j =? at0 v0 j then at0 p j else if 0 <? pull w p i j then at0 v0 j else at0 p j) i).
      { unfold field. apply sum_ext. intros j Hj. rewrite (Est j Hj). reflexivity. }
      pose proof (slack_reached m w p v0 (hebb_sym P) Hp ltac:(lia) Hv ltac:(lia) i Hi) as Hsl. rewrite <- Efl in Hsl. set (fl := field m w (st T) i) in *. clearbody fl. unfold okb in Eo. apply orb_false_iff in Eo. destruct Eo as [Eo1 Eo2]. apply Z.ltb_ge in Eo1.
      destruct (bip_comp m p i Hp ltac:(lia) Hi) as [Ep|Ep]; rewrite Ep in Hsl, Eo2 |- *.
      + change (1 =? 1) with true in Eo2. rewrite andb_true_r in Eo2. apply Z.eqb_neq in Eo2. destruct (Z.leb_spec 0 fl); lia.
      + destruct (Z.leb_spec 0 fl); lia.
    - assert (Hex : exists j, 0 <= j < m /\ st T j <> recalled (turn (planned cs) n) p v0 T j).
      { assert (Hx : existsb (fun j => negb (st T j =? recalled (turn (planned cs) n) p v0 T j)) (zrange 0 m) = true).
        { destruct (existsb (fun j => negb (st T j =? recalled (turn (planned cs) n) p v0 T j)) (zrange 0 m)) eqn:Ex; [reflexivity|]. assert (forallb (fun j => st T j =? recalled (turn (planned cs) n) p v0 T j) (zrange 0 m) = true); [|congruence].
          apply forallb_forall. intros j Hj. destruct (st T j =? recalled (turn (planned cs) n) p v0 T j) eqn:Ej; [reflexivity|]. assert (existsb (fun j => negb (st T j =? recalled (turn (planned cs) n) p v0 T j)) (zrange 0 m) = true); [|congruence].
          apply existsb_exists. exists j. rewrite Ej. auto. }
        apply existsb_exists in Hx. destruct Hx as (j & Hj & Ej). apply in_zrange in Hj. exists j. split; [lia|]. apply negb_true_iff in Ej. apply Z.eqb_neq. exact Ej. }
      destruct Hex as (j & Hj & Hne). exists T. eexists. exists j. split; [exact E|]. split; [apply Hrow; nia|]. split; [exact Hj|]. rewrite at0_map by exact Hj. exact Hne.
  Qed.

  (** patterns that are orthogonal enough are recalled from every start near enough: no condition on the weights *)
  Theorem C126_overlaps : forall n P1 p P2 v0, let P := P1 ++ p :: P2 in Forall (fun q => bipolar q /\ length q = n) P ->
    Z.of_nat (length P) + zsum (map (fun q => Z.abs (dot (Z.of_nat n) p q)) (P1 ++ P2)) + 2 * Z.of_nat (length P) * hamming (Z.of_nat n) p v0 < Z.of_nat n ->
    trainable n P /\ secure (Z.of_nat n) (hebb P) p v0.
  Proof.
    intros n P1 p P2 v0 P HP Hlt. set (m := Z.of_nat n) in *.
    assert (HP' : Forall (fun q => bipolar q /\ Z.of_nat (length q) = m) P) by (eapply Forall_impl; [|exact HP]; cbn; intros q [H1 H2]; split; [exact H1|unfold m; lia]).
    assert (Hh : 0 <= hamming m p v0).
    { unfold hamming. transitivity (sum_upto m (fun _ => 0 * 0)); [rewrite sum_mul; lia|]. apply sum_mono. intros i _. destruct (at0 p i =? at0 v0 i); lia. }
    assert (Hs : forall i, 0 <= i < m -> 0 < slack m (hebb P) p v0 i /\ 0 < sum_upto m (pull (hebb P) p i)) by (intros i Hi; destruct (overlap_slack m P1 P2 p v0 i HP' Hi) as [Ha Hb]; fold P in Ha, Hb; nia).
    split; [|intros i Hi; left; apply Hs, Hi]. split; [|split].
    - assert (Hne : P <> []) by (unfold P; destruct P1; discriminate). destruct P as [|q P']; [congruence|]. exists q. split; [reflexivity|]. inversion HP; tauto.
    - eapply Forall_impl; [|exact HP]. cbn. intros q [_ H]. lia.
    - intros i Hi. destruct (existsb (fun j => negb (hebb P i j =? 0)) (zrange 0 m)) eqn:Ex.
      + apply existsb_exists in Ex. destruct Ex as (j & Hj & Ej). apply in_zrange in Hj. exists j. split; [lia|]. apply negb_true_iff in Ej. apply Z.eqb_neq. exact Ej.
      + exfalso. destruct (Hs i Hi) as [_ Hb]. rewrite (sum_ext m _ (fun _ => 0 * 0)) in Hb; [rewrite sum_mul in Hb; lia|]. intros j Hj. unfold pull. destruct (Z.eqb_spec (hebb P i j) 0) as [->|Hne]; [lia|].
        assert (existsb (fun j => negb (hebb P i j =? 0)) (zrange 0 m) = true); [|congruence]. apply existsb_exists. exists j. split; [apply in_zrange; exact Hj|]. destruct (Z.eqb_spec (hebb P i j) 0); [contradiction|reflexivity].
  Qed.

  (** ** the script *)
  Definition digits : list (list Z) := [digit_zero; digit_one; digit_two].
  Definition secureb (n : Z) (P : list (list Z)) (p v0 : list Z) : bool := forallb (fun i => let s := slack n (hebb P) p v0 i in (0 <? s) || (s =? 0) && (at0 p i =? 1)) (zrange 0 n).
  Lemma secureb_ok n P p v0 : secureb n P p v0 = true -> secure n (hebb P) p v0.
  Proof.
    intros E i Hi. unfold secureb in E. rewrite forallb_forall in E. specialize (E i ltac:(apply in_zrange; exact Hi)). cbv zeta in E. apply orb_true_iff in E. destruct E as [E|E]; [left; apply Z.ltb_lt; exact E|].
    apply andb_true_iff in E. destruct E as [Ea Eb]. right. split; apply Z.eqb_eq; assumption.
  Qed.
  Lemma digits_trainable : trainable 30 digits.
  Proof.
    split; [exists digit_zero; split; reflexivity|]. split; [repeat constructor|]. intros i Hi.
    assert (E : forallb (fun i => existsb (fun j => negb (hebb digits i j =? 0)) (zrange 0 30)) (zrange 0 30) = true) by (vm_compute; reflexivity).
    rewrite forallb_forall in E. specialize (E i ltac:(apply in_zrange; lia)). apply existsb_exists in E. destruct E as (j & Hj & Ej). apply in_zrange in Hj. exists j. split; [lia|]. apply negb_true_iff in Ej. apply Z.eqb_neq. exact Ej.
  Qed.
  Definition bipolarb (l : list Z) : bool := forallb (fun x => (x =? 1) || (x =? -1)) l.
  Lemma bipolarb_ok l : bipolarb l = true -> bipolar l.
  Proof. intros E. apply Forall_forall. intros x Hx. unfold bipolarb in E. rewrite forallb_forall in E. specialize (E x Hx). apply orb_true_iff in E. destruct E as [E|E]; apply Z.eqb_eq in E; auto. Qed.

  (** the halves of the script, each with its digit *)
  Definition halves : list (list Z * list Z) := [(half_zero, digit_zero); (half_one, digit_one); (half_two, digit_two)].
  Lemma halves_ok half digit : In (half, digit) halves -> bipolar half /\ length half = 30%nat /\ bipolar digit /\ length digit = 30%nat /\ secure 30 (hebb digits) digit half.
  Proof.
    intros Hin. assert (E : forallb (fun hd => bipolarb (fst hd) && (length (fst hd) =? 30)%nat && (bipolarb (snd hd) && (length (snd hd) =? 30)%nat) && secureb 30 digits (snd hd) (fst hd)) halves = true) by (vm_compute; reflexivity).
    rewrite forallb_forall in E. specialize (E _ Hin). cbn [fst snd] in E. apply andb_true_iff in E. destruct E as [E E5]. apply andb_true_iff in E. destruct E as [E1 E2]. apply andb_true_iff in E1. destruct E1 as [E1 E3]. apply andb_true_iff in E2. destruct E2 as [E2 E4].
    split; [apply bipolarb_ok; exact E1|]. split; [apply Nat.eqb_eq; exact E3|]. split; [apply bipolarb_ok; exact E2|]. split; [apply Nat.eqb_eq; exact E4|apply secureb_ok; exact E5].
  Qed.

  (** from each half the net never leaves the way to the whole digit, whatever the shuffles; in the script the half is half_two, and times is 7 *)
  Theorem C126_script : forall shuffle half digit times fuel, In (half, digit) halves -> shuffles shuffle -> (1 <= times)%nat -> (30 * times <= fuel)%nat ->
    exists M, let row := fun t => map (recalled (turn shuffle 30) digit half t) (zrange 0 30) in
      hopfield_net_demo (I := I) W fuel shuffle 30 digits half times = Ok (M, map row (seq 0 (30 * times)), map (fun r => row (r * 30)%nat) (seq 0 times)).
  Proof.
    intros shuffle half digit times fuel Hin Hsh Ht Hf. destruct (halves_ok half digit Hin) as (H1 & H2 & H3 & H4 & H5).
    destruct (C126_recall shuffle 30 digits digit half times fuel digits_trainable H3 H4 H1 H2 H5 Hsh ltac:(lia) Ht Hf) as (M & _ & _ & E). exists M. exact E.
  Qed.

  (** the zero is recalled from every start with at most four wrong cells, the one and the two from every start with at most three *)
  Theorem C126_near : forall v0 digit h, In (digit, h) [(digit_zero, 4); (digit_one, 3); (digit_two, 3)] -> hamming 30 digit v0 <= h -> secure 30 (hebb digits) digit v0.
  Proof.
    assert (HD : Forall (fun q => bipolar q /\ length q = 30%nat) digits).
    { apply Forall_forall. intros q Hq. assert (Hx : exists half, In (half, q) halves) by (destruct Hq as [<-|[<-|[<-|[]]]]; eexists; [left|right; left|right; right; left]; reflexivity).
      destruct Hx as [half Hx]. destruct (halves_ok half q Hx) as (_ & _ & H1 & H2 & _). split; assumption. }
    assert (Hz : forall P1 P2 q c h v0, P1 ++ q :: P2 = digits -> zsum (map (fun q' => Z.abs (dot 30 q q')) (P1 ++ P2)) = c -> 3 + c + 6 * h < 30 -> hamming 30 q v0 <= h -> secure 30 (hebb digits) q v0).
    { intros P1 P2 q c h v0 EP Ec Hlt Hh. rewrite <- EP in *. assert (El : length (P1 ++ q :: P2) = 3%nat) by (rewrite EP; reflexivity). refine (proj2 (C126_overlaps 30 P1 q P2 v0 HD _)). change (Z.of_nat 30) with 30. rewrite El, Ec. lia. }
    intros v0 digit h Hin Hh. destruct Hin as [E|[E|[E|[]]]].
    - assert (E1 : digit_zero = digit) by exact (f_equal fst E). assert (E2 : 4 = h) by exact (f_equal snd E). subst digit h. apply (Hz [] [digit_one; digit_two] digit_zero 0 4 v0); [reflexivity|vm_compute; reflexivity|lia|exact Hh].
    - assert (E1 : digit_one = digit) by exact (f_equal fst E). assert (E2 : 3 = h) by exact (f_equal snd E). subst digit h. apply (Hz [digit_zero] [digit_two] digit_one 6 3 v0); [reflexivity|vm_compute; reflexivity|lia|exact Hh].
    - assert (E1 : digit_two = digit) by exact (f_equal fst E). assert (E2 : 3 = h) by exact (f_equal snd E). subst digit h. apply (Hz [digit_zero; digit_one] [] digit_two 6 3 v0); [reflexivity|vm_compute; reflexivity|lia|exact Hh].
  Qed.

  (** but the shuffles may never give a wrong node its turn: every timestep draws a new order, so n timesteps need not update every node once; then the script ends with the half it began with *)
  Theorem C126_every_node_updated_refuted : exists shuffle, shuffles shuffle /\ half_two <> digit_two /\ forall times fuel, (1 <= times)%nat -> (30 * times <= fuel)%nat ->
    exists M, hopfield_net_demo (I := I) W fuel shuffle 30 digits half_two times = Ok (M, repeat half_two (30 * times), repeat half_two times).
  Proof.
    exists (planned (fun _ => 15)). assert (Hsh : shuffles (planned (fun _ => 15))) by (intros d k; apply planned_perm). split; [exact Hsh|]. split; [intros E; vm_compute in E; discriminate E|]. intros times fuel Ht Hf.
    destruct (C126_script _ half_two digit_two times fuel ltac:(cbn; auto) Hsh Ht Hf) as (M & E). exists M. rewrite E.
    assert (Er : forall t, map (recalled (turn (planned (fun _ => 15)) 30) digit_two half_two t) (zrange 0 30) = half_two).
    { intros t. transitivity (map (at0 half_two) (zrange 0 30)); [|vm_compute; reflexivity]. apply map_ext_in. intros i Hi. unfold recalled. destruct (existsb _ _) eqn:Ex; [|reflexivity].
      apply existsb_exists in Ex. destruct Ex as (k & _ & Ek). rewrite planned_turn in Ek by lia. apply Z.eqb_eq in Ek. subst i. reflexivity. }
    assert (Hc : forall (f : nat -> list Z) k a, (forall t, f t = half_two) -> map f (seq a k) = repeat half_two k).
    { intros f k a Hf'. revert a. induction k as [|k IH]; intros a; [reflexivity|]. cbn [seq map repeat]. rewrite Hf', IH. reflexivity. }
    rewrite !Hc by (intros t; apply Er). reflexivity.
  Qed.
End Demo.
Print Assumptions C126_recall.
Print Assumptions C126_complete.
Print Assumptions C126_sharp.
Print Assumptions C126_overlaps.
Print Assumptions C126_script.
Print Assumptions C126_near.
Print Assumptions C126_every_node_updated_refuted.

(** ** Examples *)
Definition in_order (d k : nat) : list Z := zrange 0 (Z.of_nat k).
Example C126_example : shuffles in_order /\ trainable 30 digits /\ hamming 30 digit_two half_two = 5 /\ hamming 30 digit_zero half_zero = 7 /\ hamming 30 digit_one half_one = 3 /\
  map (recalled (turn in_order 30) digit_two half_two 30) (zrange 0 30) = digit_two /\ map (recalled (turn in_order 30) digit_two half_two 8) (zrange 0 30) <> digit_two.
Proof. split; [intros d k; reflexivity|]. split; [exact digits_trainable|]. repeat split; try (vm_compute; reflexivity). intros E. vm_compute in E. discriminate E. Qed.
(** the opposite of the zero is as far as can be, and not secure *)
Example C126_sharp_example : ~ secure 30 (hebb digits) digit_zero (map Z.opp digit_zero).
Proof. intros H. assert (Hi : 0 <= 0 < 30) by lia. specialize (H 0 Hi). assert (E : slack 30 (hebb digits) digit_zero (map Z.opp digit_zero) 0 < 0) by (vm_compute; reflexivity). lia. Qed.
