(** * C128: the scripts of demos/langtons_lambda that print an average entropy and an average mutual information *)
From Coq Require Import Reals Lra Ascii.
From Verif Require Import Py PyFacts ListFacts Network Topology TopologySpec TopologyProofs TopologyProofs2 Evolve EvolveSpec EvolveProofs EvolveStatic CaSpec CaRun CaNets Rules RulesSpec RulesProofs PropRules EcaSpec EcaProofs RuleTables TableSpec TableProofs Utils PropUtils PropReversible PropCa RevSpec PropRule30 FredkinProofs DiodeSpec DiodeProofs HopfieldSpec TuringProofs2.
From Verif Require Import Analysis AnalysisProofs AnalysisProofs2 PropAnalysis LambdaSpec EntropyDemo.
Open Scope list_scope.
Open Scope Z_scope.

(** the automaton with this number: the bit of [N] at the number that the neighbourhood spells *)
Definition numbered (N : Z) (l : list Z) : Z := Z.b2z (Z.testbit N (number 2 l)).
(** every list of draws of bits *)
Definition bit_draws (rand : Z -> Z -> list Z) : Prop := forall m, 0 <= m -> Z.of_nat (length (rand 2 m)) = m /\ Forall bit (rand 2 m).

Lemma numbered_bit N l : bit (numbered N l).
Proof. unfold numbered, bit. destruct (Z.testbit N _); auto. Qed.

Section Demo.
  Context {U I BA BN : Type} (W : env Z Z Z BA BN).
  Hypothesis Hlab : forall i, e_lab W i = Z.of_nat i.

  Lemma random_rows fuel (u0 : U) rand N n T : 3 <= n -> 0 <= N < 256 -> 1 <= T -> (Z.to_nat T <= fuel)%nat -> bit_draws rand ->
    exists traj, random_run (I := I) W fuel u0 rand N n T = Ok traj /\ traj <> [] /\
      get_activities_over_time_as_list W Z.leb traj = Ok (ring_picture (numbered N) n 1 (at0 (rand 2 n)) (Z.to_nat T)) /\ forall v, 0 <= v < n -> bit (at0 (rand 2 n) v).
  Proof.
    intros Hn HN HT Hf Hrand. destruct (Hrand n ltac:(lia)) as [Hli Hi]. set (init := rand 2 n) in *.
    destruct (ring_lattice n 1 Hn ltac:(lia) ltac:(lia)) as (net & E & Hlat). pose proof Hlat as (Hnd & Hnodes & Hcl & Hlen & Hnb & Hub).
    pose proof (shows_list W init Hlab) as (S1 & S2 & S3). rewrite Hli in S2, S3.
    assert (Hcell : forall v, 0 <= v < n -> nth_error init (Z.to_nat v) = Some (at0 init v)) by (intros v Hv; unfold at0; apply nth_error_nth'; lia).
    assert (Hbit : forall v, 0 <= v < n -> bit (at0 init v)) by (intros v Hv; assert (Hin := nth_error_In _ _ (Hcell v Hv)); rewrite Forall_forall in Hi; apply Hi, Hin).
    destruct (ca_run (I := I) W fuel u0 net (ring_nb n 1) (CList init) T (nks_args N) (nks_ca_rule N) (fun _ _ l => numbered N l) bit (at0 init)) as (uf & traj & hs & Ev & Hl & Hshow & Hz & Hkeys & Hk').
    - repeat split; reflexivity.
    - exact Hnd.
    - exact HT.
    - exact Hf.
    - cbn [to_dict]. unfold enumerate. rewrite map_length, combine_length, seq_length. lia.
    - exact Hcl.
    - intros v Hv. apply Hnb, Hnodes, Hv.
    - intros v Hv. apply Hnodes in Hv. rewrite S3 by exact Hv. apply Hcell, Hv.
    - intros v Hv. apply Hnodes in Hv. apply Hbit, Hv.
    - intros x Hx _ Ha Hla. rewrite length_ring_nb in Hla by lia. split; [|apply numbered_bit]. unfold numbered. apply C30_testbit; [exact Ha|]. rewrite Hla. change (2 ^ 2 ^ Z.of_nat (Z.to_nat (2 * 1 + 1))) with 256. exact HN.
    - exists traj. split; [|split; [|split; [|exact Hbit]]].
      + assert (Ei : init_random rand n 2 None 0 = Ok init).
        { unfold init_random. destruct (Z.ltb_spec n n); [lia|]. destruct (Z.ltb_spec n 0); [lia|]. cbn [orb]. change (2 <=? 0) with false. cbv iota. rewrite Z.sub_diag. change (0 / 2) with 0. cbn [Z.to_nat repeat app Z.sub]. rewrite app_nil_r. reflexivity. }
        unfold random_run. rewrite E. cbn [rbind]. rewrite Ei. cbn [rbind]. rewrite Ev. reflexivity.
      + intros ->. destruct hs as [|h0 hs]; [cbn [length] in Hl; lia|]. inversion Hshow.
      + rewrite (read_rows W traj hs n (fun t' => ca_state (ring_nb n 1) (fun _ _ l => numbered N l) t' (at0 init)) ltac:(lia) Hshow).
        * f_equal. unfold rows, row, ring_picture. replace (length hs) with (Z.to_nat T) by lia. apply map_ext. intros t'. apply map_ext. intros v. revert v. induction t' as [|t' IH]; intros v; [reflexivity|].
          rewrite ca_state_S. unfold ca_next. cbn [ring_cell]. f_equal. unfold ring_nb. rewrite map_map. apply map_ext. intros d. apply IH.
        * intros [|t'] S Ek; [rewrite Hz in Ek; injection Ek as <-; split; assumption|]. unfold dkeys. rewrite (Hkeys t' S Ek). split; assumption.
        * intros t' S v Ek Hv. apply (Hk' t' S Ek v). apply Hnodes, Hv.
  Qed.

  Lemma picture_table look n s T : 0 < n -> (1 <= T)%nat -> table (ring_picture look n 1 s T) (Z.to_nat n).
  Proof.
    intros Hn HT. unfold table, ring_picture. split; [destruct T; [lia|discriminate]|]. apply Forall_forall. intros l Hl. apply in_map_iff in Hl. destruct Hl as (t & <- & _). rewrite map_length, length_zrange. f_equal. lia.
  Qed.
  Lemma picture_history N n s T i : (forall v, 0 <= v < n -> bit (s v)) -> (i < Z.to_nat n)%nat ->
    history py_str (ring_picture (numbered N) n 1 s T) i = map (fun t => symbol (ring_cell (numbered N) n 1 s t (Z.of_nat i))) (seq 0 T).
  Proof.
    intros Hs Hi. unfold history, ring_picture. rewrite flat_map_concat_map, map_map. generalize (seq 0 T) as ts. induction ts as [|t ts IH]; [reflexivity|]. cbn [map List.concat]. rewrite IH.
    rewrite nth_error_map. unfold zrange. rewrite nth_error_map. rewrite (nth_error_nth' _ 0%nat) by (rewrite seq_length; lia). rewrite seq_nth by lia. cbn [option_map].
    replace (0 + Z.of_nat (0 + i)) with (Z.of_nat i) by lia. rewrite py_str_digit; [reflexivity|].
    assert (Hb : bit (ring_cell (numbered N) n 1 s t (Z.of_nat i))) by (destruct t; [apply Hs; lia|apply numbered_bit]). destruct Hb as [-> | ->]; lia.
  Qed.
  Lemma history_symbols N n s T i x : (forall v, 0 <= v < n -> bit (s v)) -> (i < Z.to_nat n)%nat -> In x (history py_str (ring_picture (numbered N) n 1 s T) i) -> In x ["0"; "1"]%char.
  Proof.
    intros Hs Hi Hx. rewrite picture_history in Hx by assumption. apply in_map_iff in Hx. destruct Hx as (t & <- & _).
    assert (Hb : bit (ring_cell (numbered N) n 1 s t (Z.of_nat i))) by (destruct t; [apply Hs; lia|apply numbered_bit]). destruct Hb as [-> | ->]; cbn; auto.
  Qed.

  (** the entropy: never fails, lies between 0 and 1, and is 0 exactly when no cell changes *)
  Theorem C128_entropy : forall fuel (u0 : U) rand N n T, 3 <= n -> 0 <= N < 256 -> 1 <= T -> (Z.to_nat T <= fuel)%nat -> bit_draws rand ->
    exists H, average_node_entropy_demo (I := I) W fuel u0 rand N n T = Ok (Some H) /\ (0 <= H <= 1)%R /\
      (H = 0%R <-> forall v t, 0 <= v < n -> (t < Z.to_nat T)%nat -> ring_cell (numbered N) n 1 (at0 (rand 2 n)) t v = at0 (rand 2 n) v).
  Proof.
    intros fuel u0 rand N n T Hn HN HT Hf Hrand. destruct (random_rows fuel u0 rand N n T Hn HN HT Hf Hrand) as (traj & E & Hne & Er & Hb).
    set (rows := ring_picture (numbered N) n 1 (at0 (rand 2 n)) (Z.to_nat T)) in *.
    assert (Ht : table rows (Z.to_nat n)) by (apply picture_table; lia).
    assert (Hrn : rows <> []) by apply Ht.
    destruct (C70_average_entropy W Z.leb py_str rows (Z.to_nat n) ["0"; "1"]%char Ht ltac:(lia) ltac:(repeat constructor; cbn; intuition discriminate)) as (h & Eh & _ & H0 & H1 & Hz).
    { intros i x Hx. destruct (Nat.lt_ge_cases i (Z.to_nat n)) as [Hi|Hi]; [apply (history_symbols N n (at0 (rand 2 n)) (Z.to_nat T) i x Hb Hi Hx)|]. exfalso. unfold history in Hx. apply in_flat_map in Hx. destruct Hx as (l & Hl & Hx).
      destruct Ht as [_ Ht]. rewrite Forall_forall in Ht. specialize (Ht l Hl). rewrite (proj2 (nth_error_None l i)) in Hx by lia. destruct Hx. }
    exists h. split; [|split].
    - unfold average_node_entropy_demo. rewrite E. cbn [rbind]. rewrite (proj2 (proj1 (C58_trajectory W Z.leb py_str (fun l => l) traj rows 1 Hne Er) Hrn)). exact Eh.
    - split; [exact H0|]. specialize (H1 ltac:(discriminate)). replace (ln (INR (length ["0"; "1"]%char)) / ln 2)%R with 1%R in H1; [exact H1|]. cbn [length INR]. replace (1 + 1)%R with 2%R by ring. symmetry. apply Rinv_r. apply Rgt_not_eq, ln2_pos.
    - rewrite Hz. split.
      + intros Hc v t Hv Htt. specialize (Hc (Z.to_nat v) (symbol (ring_cell (numbered N) n 1 (at0 (rand 2 n)) t v)) (symbol (at0 (rand 2 n) v)) ltac:(lia)).
        assert (Hs : symbol (ring_cell (numbered N) n 1 (at0 (rand 2 n)) t v) = symbol (at0 (rand 2 n) v)).
        { apply Hc; unfold rows; rewrite picture_history by (assumption || lia); rewrite Z2Nat.id by lia; apply in_map_iff; [exists t|exists 0%nat]; (split; [reflexivity|apply in_seq; lia]). }
        assert (Hb1 : bit (ring_cell (numbered N) n 1 (at0 (rand 2 n)) t v)) by (destruct t; [apply Hb, Hv|apply numbered_bit]). destruct Hb1 as [H2|H2], (Hb v Hv) as [H3|H3]; rewrite H2, H3 in *; try reflexivity; discriminate Hs.
      + intros Hc i x y Hi Hx Hy. unfold rows in Hx, Hy. rewrite picture_history in Hx, Hy by assumption. apply in_map_iff in Hx. apply in_map_iff in Hy. destruct Hx as (t & <- & Hx). destruct Hy as (t' & <- & Hy). apply in_seq in Hx. apply in_seq in Hy. rewrite !Hc by lia. reflexivity.
  Qed.

  (** the mutual information: never fails and lies between 0 and 1 *)
  Theorem C128_mutual : forall fuel (u0 : U) set_x rand N n T, any_set_order set_x -> 3 <= n -> 0 <= N < 256 -> 1 <= T -> (Z.to_nat T <= fuel)%nat -> bit_draws rand ->
    exists J, average_mutual_information_demo (I := I) W fuel u0 set_x rand N n T = Ok (Some J) /\ (0 <= J <= 1)%R.
  Proof.
    intros fuel u0 set_x rand N n T Hx Hn HN HT Hf Hrand. destruct (random_rows fuel u0 rand N n T Hn HN HT Hf Hrand) as (traj & E & Hne & Er & Hb).
    set (rows := ring_picture (numbered N) n 1 (at0 (rand 2 n)) (Z.to_nat T)) in *.
    assert (Ht : table rows (Z.to_nat n)) by (apply picture_table; lia).
    assert (Hrn : rows <> []) by apply Ht.
    destruct (proj2 (C58_guard W Z.leb py_str set_x rows (Z.to_nat n) 1 Hx Ht) ltac:(lia)) as (g & Eg & Hg & H0). exists (mean g (Z.to_nat n)). split.
    - unfold average_mutual_information_demo. rewrite E. cbn [rbind]. rewrite (proj1 (proj1 (C58_trajectory W Z.leb py_str set_x traj rows 1 Hne Er) Hrn)). exact Eg.
    - apply mean_bounds; [lia|]. intros i Hi. destruct (Hg i Hi) as [E1 H1]. split; [exact H1|]. cbn zeta in E1. set (h := history py_str rows i) in *.
      assert (Hl : length (firstn (length h - Z.to_nat 1) h) = length (skipn (Z.to_nat 1) h)) by (rewrite firstn_length, skipn_length; lia).
      destruct (C57_mutual set_x set_x Hx Hx _ _ Hl) as (j & Ej & [_ Hj] & _). rewrite E1 in Ej. injection Ej as <-. eapply Rle_trans; [exact Hj|]. eapply Rle_trans; [apply Rmin_r|].
      set (s := skipn (Z.to_nat 1) h) in *. assert (Hsym : forall x, In x s -> In x ["0"; "1"]%char).
      { intros x Hxs. apply (history_symbols N n (at0 (rand 2 n)) (Z.to_nat T) i x Hb Hi). fold rows. fold h. rewrite <- (firstn_skipn (Z.to_nat 1) h). apply in_or_app. right. exact Hxs. }
      destruct s as [|x0 s0] eqn:Es; [rewrite entropy_nil; lra|]. rewrite <- Es in *.
      eapply Rle_trans; [apply (entropy_max s (fromkeys s)); [rewrite Es; discriminate|apply fromkeys_nodup|apply fromkeys_in]|].
      assert (Hle : (length (fromkeys s) <= 2)%nat) by (change 2%nat with (length ["0"; "1"]%char); apply NoDup_incl_length; [apply fromkeys_nodup|]; intros x Hx'; apply Hsym, fromkeys_in, Hx').
      assert (Hpos : (1 <= length (fromkeys s))%nat) by (destruct (fromkeys s) as [|y l] eqn:Ef; [exfalso; assert (Hin : In x0 (fromkeys s)) by (apply fromkeys_in; rewrite Es; left; reflexivity); rewrite Ef in Hin; destruct Hin|cbn; lia]).
      pose proof ln2_pos as Hl2. unfold log2. assert (length (fromkeys s) = 1%nat \/ length (fromkeys s) = 2%nat) as [-> | ->] by lia; cbn [INR].
      + rewrite ln_1. unfold Rdiv. rewrite Rmult_0_l. lra.
      + replace (1 + 1)%R with 2%R by ring. right. apply Rinv_r. apply Rgt_not_eq, ln2_pos.
  Qed.

  (** average_node_entropy_demo.py:11 says that the value will be about 0.999. The draws of no cells give 0, for every number of timesteps. *)
  Theorem C128_about_one_refuted : exists rand, bit_draws rand /\ forall fuel (u0 : U) T, 1 <= T -> (Z.to_nat T <= fuel)%nat ->
    average_node_entropy_demo (I := I) W fuel u0 rand 30 200 T = Ok (Some 0%R).
  Proof.
    exists (fun _ m => repeat 0 (Z.to_nat m)).
    assert (Hd : bit_draws (fun _ m => repeat 0 (Z.to_nat m))) by (intros m Hm; split; [rewrite repeat_length; lia|apply Forall_forall; intros a Ha; apply repeat_spec in Ha; left; exact Ha]).
    split; [exact Hd|]. intros fuel u0 T HT Hf.
    destruct (C128_entropy fuel u0 _ 30 200 T ltac:(lia) ltac:(lia) HT Hf Hd) as (H & E & _ & Hz). rewrite E. do 2 f_equal. apply Hz. intros v t _ _. revert v.
    assert (H0 : forall v, at0 (repeat 0 (Z.to_nat 200)) v = 0) by (intros v; unfold at0; apply nth_repeat). induction t as [|t IH]; intros v; [reflexivity|]. cbn [ring_cell]. rewrite H0. change (zrange (- (1)) (1 + 1)) with [-1; 0; 1]. cbn [map]. rewrite !IH, !H0. reflexivity.
  Qed.
End Demo.
Print Assumptions C128_entropy.
Print Assumptions C128_mutual.
Print Assumptions C128_about_one_refuted.

Example C128_example : bit_draws (fun _ m => map (fun i => i mod 2) (zrange 0 m)) /\ any_set_order (fun s : list ascii => fromkeys s) /\
  ring_picture (numbered 30) 7 1 (fun v => if v =? 3 then 1 else 0) 3 = [[0; 0; 0; 1; 0; 0; 0]; [0; 0; 1; 1; 1; 0; 0]; [0; 1; 1; 0; 0; 1; 0]].
Proof.
  split; [|split; [split; [apply fromkeys_nodup|apply fromkeys_in]|vm_compute; reflexivity]].
  intros m Hm. split; [rewrite map_length, length_zrange; lia|]. apply Forall_forall. intros a Ha. apply in_map_iff in Ha. destruct Ha as (i & <- & _). pose proof (Z.mod_pos_bound i 2 ltac:(lia)). unfold bit. lia.
Qed.
