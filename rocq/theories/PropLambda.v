(** * C127: automata given by random tables, and the scripts of demos/langtons_lambda *)
From Coq Require Import Ascii.
From Verif Require Import Py PyFacts ListFacts Network Topology TopologySpec TopologyProofs TopologyProofs2 Evolve EvolveSpec EvolveProofs EvolveStatic CaSpec CaRun CaNets Rules RulesSpec RulesProofs RuleTables TableSpec TableProofs PropTables Utils PropUtils PropReversible PropCa RevSpec PropRule30 FredkinProofs DiodeSpec DiodeProofs HopfieldSpec TuringProofs2.
From Verif Require Import LambdaSpec LambdaDemo.
Open Scope list_scope.
Open Scope Z_scope.

(** ** on the ring *)
Lemma cell_range look k r n s : 0 <= r -> 0 < n -> keeps_states k r look -> (forall v, 0 <= v < n -> 0 <= s v < k) -> forall t v, 0 <= v < n -> 0 <= ring_cell look n r s t v < k.
Proof.
  intros Hr Hn Hk Hs. induction t as [|t IH]; intros v Hv; [apply Hs, Hv|]. cbn [ring_cell]. apply Hk. split.
  - apply Forall_forall. intros a Ha. apply in_map_iff in Ha. destruct Ha as (d & <- & _). apply IH, Z.mod_pos_bound. exact Hn.
  - rewrite map_length, length_zrange. lia.
Qed.
Lemma map_const_in {A B} (f : A -> B) b l : (forall x, In x l -> f x = b) -> map f l = repeat b (length l).
Proof. induction l as [|x l IH]; intros H; [reflexivity|]. cbn [map length repeat]. rewrite (H x (or_introl eq_refl)), IH; [reflexivity|]. intros y Hy. apply H. right. exact Hy. Qed.

(** a background of one state stays where the light cones of the other cells have not come *)
Theorem C127_cone : forall look k r n s d, 0 <= r -> 0 < n -> strongly_quiescent k r look -> 0 <= d < k ->
  forall t v, (forall e, Z.abs e <= r * Z.of_nat t -> s ((v + e) mod n) = d) -> 0 <= v < n -> ring_cell look n r s t v = d.
Proof.
  intros look k r n s d Hr Hn Hq Hd. induction t as [|t IH]; intros v He Hv.
  - cbn [ring_cell]. specialize (He 0 ltac:(lia)). rewrite Z.add_0_r, Z.mod_small in He by exact Hv. exact He.
  - cbn [ring_cell]. rewrite (map_const_in _ d).
    + rewrite length_zrange. replace (r + 1 - - r) with (2 * r + 1) by lia. apply Hq, Hd.
    + intros x Hx. apply in_zrange in Hx. apply IH; [|apply Z.mod_pos_bound, Hn]. intros e Hle. rewrite Zplus_mod_idemp_l, <- Z.add_assoc. apply He. nia.
Qed.

(** one state everywhere stays for ever *)
Theorem C127_uniform : forall look k r n s d, 0 <= r -> 0 < n -> strongly_quiescent k r look -> 0 <= d < k -> (forall v, 0 <= v < n -> s v = d) -> forall t v, 0 <= v < n -> ring_cell look n r s t v = d.
Proof. intros look k r n s d Hr Hn Hq Hd Hs t v Hv. apply (C127_cone look k r n s d Hr Hn Hq Hd); [|exact Hv]. intros e _. apply Hs, Z.mod_pos_bound, Hn. Qed.

(** the mirror image of the start gives the mirror image of the picture, whatever cell or gap the mirror stands at *)
Theorem C127_mirror : forall look k r n s c, 0 <= r -> 0 < n -> keeps_states k r look -> blind_to_side k r look -> (forall v, 0 <= v < n -> 0 <= s v < k) ->
  forall t v, ring_cell look n r (fun w => s ((c - w) mod n)) t (v mod n) = ring_cell look n r s t ((c - v) mod n).
Proof.
  intros look k r n s c Hr Hn Hk Hb Hs. induction t as [|t IH]; intros v.
  - cbn [ring_cell]. f_equal. rewrite Zminus_mod_idemp_r. reflexivity.
  - cbn [ring_cell]. rewrite <- Hb.
    + f_equal. rewrite <- map_rev, <- zrange_opp_rev, map_map by exact Hr. apply map_ext. intros d. rewrite Zplus_mod_idemp_l, Zplus_mod_idemp_l, IH. f_equal. f_equal. lia.
    + split; [|rewrite map_length, length_zrange; lia]. apply Forall_forall. intros a Ha. apply in_map_iff in Ha. destruct Ha as (d & <- & _). rewrite Zplus_mod_idemp_l, IH. apply (cell_range look k r n s Hr Hn Hk Hs), Z.mod_pos_bound, Hn.
Qed.
Print Assumptions C127_cone.
Print Assumptions C127_uniform.
Print Assumptions C127_mirror.

(** ** tables *)
(** what the table [t] makes of a neighbourhood *)
Definition look_up (t : dict (list ascii) Z) (l : list Z) : Z := match dget t (written l) with Some v => v | None => 0 end.
(** the table has exactly the neighbourhoods as keys, once each *)
Definition complete (k r : Z) (t : dict (list ascii) Z) : Prop :=
  NoDup (dkeys t) /\ (forall s, In s (dkeys t) <-> exists l, neighbourhood k r l /\ s = written l) /\ Z.of_nat (length t) = k ^ (2 * r + 1).

Lemma complete_look k r t l : complete k r t -> neighbourhood k r l -> dget t (written l) = Some (look_up t l).
Proof.
  intros (_ & Hk & _) Hl. unfold look_up. destruct (dget t (written l)) eqn:E; [reflexivity|]. exfalso.
  assert (Hin : In (written l) (dkeys t)) by (apply Hk; eauto). apply dmem_true in Hin. unfold dmem in Hin. rewrite E in Hin. discriminate Hin.
Qed.

Lemma map_rep {A B} (f : A -> B) x m : map f (repeat x m) = repeat (f x) m.
Proof. induction m as [|m IH]; [reflexivity|]. cbn [repeat map]. rewrite IH. reflexivity. Qed.

Lemma Forall2_len {A B} (R : A -> B -> Prop) l l' : Forall2 R l l' -> length l = length l'.
Proof. induction 1 as [|x y l l' _ _ IH]; [reflexivity|]. cbn [length]. rewrite IH. reflexivity. Qed.

(** every list of draws *)
Definition draws (rand : Z -> Z -> list Z) : Prop := forall k m, 0 < k -> 0 <= m -> Z.of_nat (length (rand k m)) = m /\ Forall (fun x => 0 <= x < k) (rand k m).

Section Demo.
  Context {U I BA BN : Type} (W : env Z Z Z BA BN).
  Hypothesis Hlab : forall i, e_lab W i = Z.of_nat i.

  Lemma table_run fuel (u0 : U) k r n t init T : 2 <= k <= 10 -> 0 <= r -> 3 <= n -> 2 * r + 1 <= n -> 1 <= T -> (Z.to_nat T <= fuel)%nat -> complete k r t -> keeps_states k r (look_up t) ->
    Forall (fun a => 0 <= a < k) init -> Z.of_nat (length init) = n ->
    exists net uf traj, cellular_automaton n r true = Ok net /\ evolve W fuel u0 net (Some (CList init)) (Some T) None (table_args (I := I) t) = Ok (uf, traj) /\
      get_activities_over_time_as_list W Z.leb traj = Ok (ring_picture (look_up t) n r (at0 init) (Z.to_nat T)).
  Proof.
    intros Hk Hr Hn H2r HT Hf Hc Hks Hi Hli.
    destruct (ring_lattice n r Hn Hr H2r) as (net & E & Hlat). pose proof Hlat as (Hnd & Hnodes & Hcl & Hlen & Hnb & Hub).
    pose proof (shows_list W init Hlab) as (S1 & S2 & S3). rewrite Hli in S2, S3.
    assert (Hcell : forall v, 0 <= v < n -> nth_error init (Z.to_nat v) = Some (at0 init v)).
    { intros v Hv. unfold at0. apply nth_error_nth'. lia. }
    destruct (ca_run (I := I) W fuel u0 net (ring_nb n r) (CList init) T (table_args t) (table_rule t) (fun _ _ l => look_up t l) (fun a => 0 <= a < k) (at0 init)) as (uf & traj & hs & Ev & Hl & Hshow & Hz & Hkeys & Hk').
    - repeat split; reflexivity.
    - exact Hnd.
    - exact HT.
    - exact Hf.
    - cbn [to_dict]. unfold enumerate. rewrite map_length, combine_length, seq_length. lia.
    - exact Hcl.
    - intros v Hv. apply Hnb, Hnodes, Hv.
    - intros v Hv. apply Hnodes in Hv. rewrite S3 by exact Hv. apply Hcell, Hv.
    - intros v Hv. apply Hnodes in Hv. assert (Hin := nth_error_In _ _ (Hcell v Hv)). rewrite Forall_forall in Hi. apply Hi, Hin.
    - intros x Hx _ Ha Hla. rewrite length_ring_nb in Hla by lia. assert (Hnx : neighbourhood k r (x_nacts x)) by (split; [exact Ha|lia]).
      split; [|apply Hks, Hnx]. refine (proj1 (C38_table_rule _ _ _ t x _) _ (complete_look k r t _ Hc Hnx)). refine (Forall_impl _ _ Ha). intros a; lia.
    - exists net, uf, traj. split; [exact E|]. split; [exact Ev|].
      rewrite (read_rows W traj hs n (fun t' => ca_state (ring_nb n r) (fun _ _ l => look_up t l) t' (at0 init)) ltac:(lia) Hshow).
      + f_equal. unfold rows, row, ring_picture. replace (length hs) with (Z.to_nat T) by lia. apply map_ext. intros t'. apply map_ext. intros v. revert v. induction t' as [|t' IH]; intros v; [reflexivity|].
        rewrite ca_state_S. unfold ca_next. cbn [ring_cell]. f_equal. unfold ring_nb. rewrite map_map. apply map_ext. intros d. apply IH.
      + intros [|t'] S Ek; [rewrite Hz in Ek; injection Ek as <-; split; assumption|]. unfold dkeys. rewrite (Hkeys t' S Ek). split; assumption.
      + intros t' S v Ek Hv. apply (Hk' t' S Ek v). apply Hnodes, Hv.
  Qed.

  Lemma random_table_look {F} (quot : Z -> Z -> F) coin pick k r qdraw : 2 <= k <= 36 -> 0 <= r -> 0 <= qdraw < k ->
    exists t, random_rule_table quot coin pick k r None qdraw true true = Ok (t, quot (k ^ (2 * r + 1) - entries_equal t qdraw) (k ^ (2 * r + 1)), qdraw) /\ complete k r t /\
      keeps_states k r (look_up t) /\ strongly_quiescent k r (look_up t) /\ blind_to_side k r (look_up t).
  Proof.
    intros Hk Hr Hq. destruct (C39_random_table F quot coin pick k r None qdraw true true Hk Hr Hq) as (t & E & Hnd & Hl & Hkey & Hv & Hs & Hi). exists t. split; [exact E|].
    assert (Hc : complete k r t).
    { split; [exact Hnd|]. split; [|exact Hl]. intros s. rewrite Hkey. split; [intros (ds & H1 & H2 & H3)|intros (ds & (H1 & H2) & H3)]; exists ds; unfold neighbourhood; tauto. }
    split; [exact Hc|]. split; [intros l Hln; exact (Hv _ _ (complete_look k r t l Hc Hln))|]. split.
    - intros d Hd. unfold look_up. rewrite (Hs eq_refl d Hd). reflexivity.
    - intros l Hln. unfold look_up, written. rewrite map_rev, <- (Hi eq_refl). reflexivity.
  Qed.

  (** rule_table_demo.py, for every outcome of the draws. In the script k = 4, r = 2, n = 128, m = 20, T = 200. *)
  Theorem C127_table_script : forall F (quot : Z -> Z -> F) coin pick qdraw rand fuel (u0 : U) k r n m T, 2 <= k <= 10 -> 0 <= r -> 3 <= n -> 2 * r + 1 <= n -> 0 <= m <= n -> 1 <= T -> (Z.to_nat T <= fuel)%nat ->
    0 <= qdraw < k -> draws rand ->
    exists look s, rule_table_demo (I := I) W fuel u0 quot coin pick qdraw rand k r n m T = Ok (ring_picture look n r s (Z.to_nat T)) /\
      keeps_states k r look /\ strongly_quiescent k r look /\ blind_to_side k r look /\
      (forall v, 0 <= v < n -> 0 <= s v < k) /\ (forall v, 0 <= v < n -> ~ (n - m) / 2 <= v < (n - m) / 2 + m -> s v = 0) /\
      (forall t v, 0 <= v < n -> v + r * Z.of_nat t < (n - m) / 2 -> (n - m) / 2 + m <= v - r * Z.of_nat t + n -> ring_cell look n r s t v = 0) /\
      (forall t v, 0 <= v < n -> (n - m) / 2 + m <= v - r * Z.of_nat t -> v + r * Z.of_nat t < (n - m) / 2 + n -> ring_cell look n r s t v = 0).
  Proof.
    intros F quot coin pick qdraw rand fuel u0 k r n m T Hk Hr Hn H2r Hm HT Hf Hq Hrand.
    destruct (random_table_look quot coin pick k r qdraw ltac:(lia) Hr Hq) as (t & Et & Hc & Hks & Hsq & Hbs).
    destruct (Hrand k m ltac:(lia) ltac:(lia)) as [Hlm Hfm]. set (pl := (n - m) / 2). assert (Hpl : 0 <= pl /\ pl + m <= n) by (unfold pl; pose proof (Z.div_mod (n - m) 2 ltac:(lia)); pose proof (Z.mod_pos_bound (n - m) 2 ltac:(lia)); lia).
    set (init := repeat 0 (Z.to_nat pl) ++ rand k m ++ repeat 0 (Z.to_nat (n - m - pl))).
    assert (Ei : init_random rand n k (Some m) 0 = Ok init).
    { unfold init_random. destruct (Z.ltb_spec n m); [lia|]. destruct (Z.ltb_spec m 0); [lia|]. cbn [orb]. destruct (Z.leb_spec k 0); [lia|]. reflexivity. }
    assert (Hli : Z.of_nat (length init) = n) by (unfold init; rewrite !app_length, !repeat_length; lia).
    assert (Hfi : Forall (fun a => 0 <= a < k) init) by (unfold init; rewrite !Forall_app; split; [|split; [exact Hfm|]]; apply Forall_forall; intros a Ha; apply repeat_spec in Ha; lia).
    destruct (table_run fuel u0 k r n t init T Hk Hr Hn H2r HT Hf Hc Hks Hfi Hli) as (net & uf & traj & E1 & E2 & E3).
    assert (Hz : forall v, 0 <= v < n -> ~ pl <= v < pl + m -> at0 init v = 0).
    { intros v Hv Hout. unfold at0, init. destruct (Z.ltb_spec v pl).
      - rewrite app_nth1 by (rewrite repeat_length; lia). apply nth_repeat.
      - rewrite app_nth2, repeat_length by (rewrite repeat_length; lia). rewrite app_nth2 by lia. apply nth_repeat. }
    exists (look_up t), (at0 init). split.
    { unfold rule_table_demo. rewrite Et. cbn [rbind]. rewrite E1. cbn [rbind]. rewrite Ei. cbn [rbind]. rewrite E2. cbn [rbind]. exact E3. }
    split; [exact Hks|]. split; [exact Hsq|]. split; [exact Hbs|]. split.
    { intros v Hv. rewrite Forall_forall in Hfi. apply Hfi. unfold at0. apply nth_In. lia. }
    split; [exact Hz|].
    split; intros t' v Hv H1 H2; (apply (C127_cone (look_up t) k r n (at0 init) 0 Hr ltac:(lia) Hsq ltac:(lia)); [|exact Hv]; intros e He; apply Hz; [apply Z.mod_pos_bound; lia|]).
    - destruct (Z.ltb_spec (v + e) 0); [rewrite <- (Z.mod_unique (v + e) n (-1) (v + e + n)) by nia; nia|rewrite Z.mod_small by nia; nia].
    - destruct (Z.ltb_spec (v + e) n); [rewrite Z.mod_small by nia; nia|rewrite <- (Z.mod_unique (v + e) n 1 (v + e - n)) by nia; nia].
  Qed.

  (** what is printed and plotted for one table: its lambda, and a picture of it from some start *)
  Definition shown_table {F} (quot : Z -> Z -> F) (k r n q T : Z) (out : F * list (list Z)) : Prop :=
    exists t s, complete k r t /\ keeps_states k r (look_up t) /\ strongly_quiescent k r (look_up t) /\ (forall v, 0 <= v < n -> 0 <= s v < k) /\
      out = (quot (k ^ (2 * r + 1) - entries_equal t q) (k ^ (2 * r + 1)), ring_picture (look_up t) n r s (Z.to_nat T)).

  Lemma walk_script_gen : forall F (quot : Z -> Z -> F) flt feq coin pick0 pick qdraw rand fuel (u0 : U) k r n T vals (near : F -> F -> Prop), 2 <= k <= 10 -> 0 <= r -> 3 <= n -> 2 * r + 1 <= n -> 1 <= T -> (Z.to_nat T <= fuel)%nat ->
    0 <= qdraw < k -> (forall i, draws (rand i)) ->
    (forall t x i, In x vals -> complete k r t -> strongly_quiescent k r (look_up t) -> exists t' l, table_walk_through quot flt feq (pick i) (S (length t)) t x k r qdraw true false = Ok (t', l) /\ near x l) ->
    exists t outs, walkthrough_demo (I := I) W fuel u0 quot flt feq coin pick0 pick qdraw rand k r n T vals = Ok (t, outs) /\
      Forall2 (fun x out => near x (fst out) /\ shown_table quot k r n qdraw T out) vals outs.
  Proof.
    intros F quot flt feq coin pick0 pick qdraw rand fuel u0 k r n T vals near Hk Hr Hn H2r HT Hf Hq Hrand Hnear.
    destruct (random_table_look quot coin pick0 k r qdraw ltac:(lia) Hr Hq) as (t0 & Et & Hc & Hks & Hsq & _).
    assert (Hgen : forall vs t0 outs0 i, incl vs vals -> complete k r t0 -> keeps_states k r (look_up t0) -> strongly_quiescent k r (look_up t0) ->
      exists t outs i', rfold (walkthrough_turn (I := I) W fuel u0 quot flt feq pick rand k r n T qdraw) vs (t0, outs0, i) = Ok (t, outs0 ++ outs, i') /\ Forall2 (fun x out => near x (fst out) /\ shown_table quot k r n qdraw T out) vs outs).
    { clear Et t0 Hc Hks Hsq. induction vs as [|x vs IH]; intros t0 outs0 i Hincl Hc Hks Hsq.
      - exists t0, [], i. cbn [rfold]. rewrite app_nil_r. split; [reflexivity|constructor].
      - cbn [rfold]. destruct (C40_walk F quot flt feq (pick i) (S (length t0)) t0 x k r qdraw true false ltac:(lia) ltac:(lia)) as (t1 & E1 & _).
        destruct (C40_invariants F quot flt feq (pick i) (S (length t0)) t0 x k r qdraw true false t1 _ ltac:(lia) ltac:(lia) E1) as (El & Hkeys & Hun & _ & Hval). specialize (Hkeys ltac:(discriminate)). specialize (Hun eq_refl).
        assert (Hv0 : forall s v, dget t0 s = Some v -> 0 <= v < k).
        { intros s v Es. assert (Hin : In s (dkeys t0)) by (apply dmem_true; unfold dmem; rewrite Es; reflexivity). apply (proj1 (proj2 Hc)) in Hin. destruct Hin as (l & Hl & ->). rewrite (complete_look k r t0 l Hc Hl) in Es. injection Es as <-. apply Hks, Hl. }
        specialize (Hval Hq Hv0).
        assert (Hc1 : complete k r t1).
        { destruct Hc as (Hc1 & Hc2 & Hc3). unfold complete. rewrite Hkeys. split; [exact Hc1|]. split; [exact Hc2|]. rewrite <- Hc3. f_equal. apply (f_equal (@length _)) in Hkeys. unfold dkeys in Hkeys. rewrite !map_length in Hkeys. exact Hkeys. }
        assert (Hks1 : keeps_states k r (look_up t1)) by (intros l Hl; exact (Hval _ _ (complete_look k r t1 l Hc1 Hl))).
        assert (Hsq1 : strongly_quiescent k r (look_up t1)).
        { intros d Hd. unfold look_up. rewrite Hun; [apply Hsq, Hd|]. unfold written. rewrite map_rep. exists (symbol d), (Z.to_nat (2 * r)). f_equal. lia. }
        destruct (Hrand i k n ltac:(lia) ltac:(lia)) as [Hlm Hfm].
        destruct (table_run fuel u0 k r n t1 (rand i k n) T Hk Hr Hn H2r HT Hf Hc1 Hks1 Hfm Hlm) as (net & uf & traj & F1 & F2 & F3).
        assert (Ei : init_random (rand i) n k None 0 = Ok (rand i k n)).
        { unfold init_random. destruct (Z.ltb_spec n n); [lia|]. destruct (Z.ltb_spec n 0); [lia|]. cbn [orb]. destruct (Z.leb_spec k 0); [lia|]. rewrite Z.sub_diag. change (0 / 2) with 0. cbn [Z.to_nat repeat app Z.sub]. rewrite app_nil_r. reflexivity. }
        unfold walkthrough_turn at 1. rewrite F1. cbn [rbind]. rewrite Ei. cbn [rbind]. rewrite E1. cbn [rbind]. rewrite F2. cbn [rbind]. rewrite F3. cbn [rbind].
        destruct (Hnear t0 x i (Hincl x (or_introl eq_refl)) Hc Hsq) as (t2 & l2 & E2 & Hn2). rewrite E1 in E2. injection E2 as <- <-.
        destruct (IH t1 (outs0 ++ [(lam quot k r qdraw t1, ring_picture (look_up t1) n r (at0 (rand i k n)) (Z.to_nat T))]) (S i) (fun y Hy => Hincl y (or_intror Hy)) Hc1 Hks1 Hsq1) as (t & outs & i' & G1 & G2).
        rewrite <- app_assoc in G1. exists t, ((lam quot k r qdraw t1, ring_picture (look_up t1) n r (at0 (rand i k n)) (Z.to_nat T)) :: outs), i'. split; [exact G1|]. constructor; [|exact G2]. split; [exact Hn2|].
        exists t1, (at0 (rand i k n)). split; [exact Hc1|]. split; [exact Hks1|]. split; [exact Hsq1|]. split; [|f_equal; exact El]. intros v Hv. rewrite Forall_forall in Hfm. apply Hfm. unfold at0. apply nth_In. lia. }
    destruct (Hgen vals t0 [] 0%nat (fun y Hy => Hy) Hc Hks Hsq) as (t & outs & i' & G1 & G2).
    exists t, outs. split; [unfold walkthrough_demo; rewrite Et; cbn [rbind]; rewrite G1; reflexivity|exact G2].
  Qed.

  (** rule_table_walkthrough_demo.py, for every outcome of the draws and any kind of number: the script cannot fail, and each picture belongs to a complete, strongly quiescent table that has the printed lambda *)
  Theorem C127_walk_script : forall F (quot : Z -> Z -> F) flt feq coin pick0 pick qdraw rand fuel (u0 : U) k r n T vals, 2 <= k <= 10 -> 0 <= r -> 3 <= n -> 2 * r + 1 <= n -> 1 <= T -> (Z.to_nat T <= fuel)%nat ->
    0 <= qdraw < k -> (forall i, draws (rand i)) ->
    exists t outs, walkthrough_demo (I := I) W fuel u0 quot flt feq coin pick0 pick qdraw rand k r n T vals = Ok (t, outs) /\ length outs = length vals /\ Forall (shown_table quot k r n qdraw T) outs.
  Proof.
    intros F quot flt feq coin pick0 pick qdraw rand fuel u0 k r n T vals Hk Hr Hn H2r HT Hf Hq Hrand.
    destruct (walk_script_gen F quot flt feq coin pick0 pick qdraw rand fuel u0 k r n T vals (fun _ _ => True) Hk Hr Hn H2r HT Hf Hq Hrand) as (t & outs & E & Ho).
    { intros t x i _ _ _. destruct (C40_walk F quot flt feq (pick i) (S (length t)) t x k r qdraw true false ltac:(lia) ltac:(lia)) as (t1 & E1 & _). eauto. }
    exists t, outs. split; [exact E|]. split; [symmetry; exact (Forall2_len _ _ _ Ho)|]. clear E. induction Ho as [|x out vs os [_ H] Ho IH]; constructor; assumption.
  Qed.
End Demo.
Print Assumptions C127_table_script.
Print Assumptions C127_walk_script.

(** ** how near the walk comes, with exact fractions *)
From Coq Require Import QArith Lqa.
Open Scope Z_scope.
Definition ratio (a b : Z) : Q := (inject_Z a / inject_Z b)%Q.
Definition less (x y : Q) : bool := negb (Qle_bool y x).
Lemma less_true x y : less x y = true <-> (x < y)%Q.
Proof. unfold less. destruct (Qle_bool y x) eqn:E; cbn [negb]; [apply Qle_bool_iff in E; split; [discriminate|lra]|]. split; [|reflexivity]. intros _. apply Qnot_le_lt. intros H. apply Qle_bool_iff in H. congruence. Qed.
Lemma less_false x y : less x y = false <-> (y <= x)%Q.
Proof. unfold less. destruct (Qle_bool y x) eqn:E; cbn [negb]; [apply Qle_bool_iff in E; tauto|]. split; [discriminate|]. intros H. apply Qle_bool_iff in H. congruence. Qed.

(** the steps of a walk over a table without mirror images: all but the last were taken before the target, and each changes one entry *)
Lemma walk_last strong go_on (p p' : Z -> Prop) q (e : Z) : (forall v w, p v -> p' w -> is_q q w - is_q q v = e) -> forall t t', walk dget strong false go_on p p' t t' -> NoDup (dkeys t) ->
  t' = t \/ exists tl, go_on tl /\ entries_equal t' q = entries_equal tl q + e.
Proof.
  intros He t t' Hw. induction Hw as [t|t s v t1 t2 Hg Ha Hv Hc Hw IH]; intros Hnd; [left; reflexivity|right].
  destruct Ha as [(o & Eo & Ho) _]. destruct Hc as (H1 & H2 & H3). specialize (H3 ltac:(discriminate)).
  assert (E1 : t1 = dset t s v).
  { assert (Hkd : dkeys (dset t s v) = dkeys t) by (rewrite dkeys_dset; unfold dmem; rewrite Eo; reflexivity).
    apply dict_ext; [rewrite Hkd; exact H3|unfold dkeys; rewrite H3; exact Hnd|]. intros x. rewrite dget_dset. destruct (eqd x s) as [->|Hne]; [apply H1; left; reflexivity|apply H2; [exact Hne|discriminate]]. }
  assert (Hnd1 : NoDup (dkeys t1)) by (unfold dkeys; rewrite H3; exact Hnd).
  destruct (IH Hnd1) as [->|Hr]; [|exact Hr]. exists t. split; [exact Hg|]. rewrite E1, entries_dset, Eo. specialize (He o v Ho Hv). lia.
Qed.

Lemma entries_filter (t : dict (list ascii) Z) q : entries_equal t q = Z.of_nat (length (filter (fun p => snd p =? q) t)) /\ Z.of_nat (length t) - entries_equal t q = Z.of_nat (length (filter (fun p => negb (snd p =? q)) t)).
Proof.
  unfold entries_equal. induction t as [|[s o] t [IH1 IH2]]; [split; reflexivity|]. cbn [map snd occurs filter length]. destruct (Z.eq_dec o q) as [->|Hne]; [rewrite Z.eqb_refl|rewrite (proj2 (Z.eqb_neq o q) Hne)]; cbn [negb length]; lia.
Qed.
Lemma few_keys (t : dict (list ascii) Z) f l : NoDup (dkeys t) -> (forall s v, In (s, v) t -> f (s, v) = true -> In s l) -> (length (filter f t) <= length l)%nat.
Proof.
  intros Hnd H. rewrite <- (map_length fst). apply NoDup_incl_length.
  - clear H. unfold dkeys in Hnd. induction t as [|x t IH]; [constructor|]. cbn [map] in Hnd. inversion Hnd as [|? ? Hn Hnd']. subst. cbn [filter]. destruct (f x); [|apply IH, Hnd']. cbn [map]. constructor; [|apply IH, Hnd']. intros Hin. apply Hn. apply in_map_iff in Hin. destruct Hin as (y & Ey & Hy). apply filter_In in Hy. apply in_map_iff. exists y. tauto.
  - intros s Hs. apply in_map_iff in Hs. destruct Hs as ([s' v] & <- & Hin). apply filter_In in Hin. exact (H _ _ (proj1 Hin) (proj2 Hin)).
Qed.

(** the value that the walk reports differs from the one asked for by less than one entry's share *)
Theorem C127_lambda_reached : forall pick t target k r q, 2 <= k <= 36 -> 0 <= r -> 0 <= q < k -> complete k r t -> strongly_quiescent k r (look_up t) ->
  (ratio (k - 1) (k ^ (2 * r + 1)) <= target)%Q -> (target <= ratio (k ^ (2 * r + 1) - 1) (k ^ (2 * r + 1)))%Q ->
  exists t' l, table_walk_through ratio less Qeq_bool pick (S (length t)) t target k r q true false = Ok (t', l) /\ l = ratio (k ^ (2 * r + 1) - entries_equal t' q) (k ^ (2 * r + 1)) /\
    (target - ratio 1 (k ^ (2 * r + 1)) < l)%Q /\ (l < target + ratio 1 (k ^ (2 * r + 1)))%Q.
Proof.
  intros pick t target k r q Hk Hr Hq Hc Hsq Hlo Hhi. set (K := k ^ (2 * r + 1)) in *. assert (HK : 0 < K) by (apply Z.pow_pos_nonneg; lia).
  assert (HKq : (0 < inject_Z K)%Q) by (change 0%Q with (inject_Z 0); rewrite <- Zlt_Qlt; exact HK).
  assert (HiK : (0 < / inject_Z K)%Q) by (apply Qinv_lt_0_compat, HKq).
  assert (Hr1 : ratio 1 K == / inject_Z K) by (unfold ratio; change (inject_Z 1) with 1%Q; field; lra).
  assert (Hadd : forall a b, ratio (a + b) K == ratio a K + ratio b K) by (intros a b; unfold ratio; rewrite inject_Z_plus; field; lra).
  assert (Hmono : forall a b, a <= b -> (ratio a K <= ratio b K)%Q).
  { intros a b Hab. unfold ratio, Qdiv. apply Qmult_le_compat_r; [rewrite <- Zle_Qle; exact Hab|lra]. }
  destruct (C40_walk Q ratio less Qeq_bool pick (S (length t)) t target k r q true false ltac:(lia) ltac:(lia)) as (t' & E & Hcases).
  destruct (C40_invariants Q ratio less Qeq_bool pick (S (length t)) t target k r q true false t' _ ltac:(lia) ltac:(lia) E) as (El & Hkeys & Hun & _). specialize (Hkeys ltac:(discriminate)). specialize (Hun eq_refl).
  pose proof Hc as (Hnd & Hkey & Hlen). fold K in Hlen, El.
  assert (Hlen' : Z.of_nat (length t') = K) by (rewrite <- Hlen; f_equal; apply (f_equal (@length _)) in Hkeys; unfold dkeys in Hkeys; rewrite !map_length in Hkeys; exact Hkeys).
  assert (Hnd' : NoDup (dkeys t')) by (rewrite Hkeys; exact Hnd).
  (* a uniform key and its value *)
  assert (Huni : forall s v, In (s, v) t' -> uniform s -> 0 <= v < k /\ s = written (repeat v (Z.to_nat (2 * r + 1)))).
  { intros s v Hin Hu. apply (dget_in _ _ _ Hnd') in Hin. assert (Hs : In s (dkeys t)) by (rewrite <- Hkeys; apply dmem_true; unfold dmem; rewrite Hin; reflexivity).
    apply Hkey in Hs. destruct Hs as (l & [Hl1 Hl2] & ->). rewrite (Hun _ Hu) in Hin. destruct Hu as (c & m & Eu).
    destruct l as [|d l']; [cbn in Hl2; lia|]. assert (Hall : forall a, In a (d :: l') -> a = d).
    { assert (Hs36 : is_states 36 (d :: l')) by (apply (is_states_36 k); [lia|exact Hl1]). intros a Ha. assert (Hsym : symbol a = symbol d).
      { assert (In (symbol a) (written (d :: l'))) as H1 by (apply in_map, Ha). assert (In (symbol d) (written (d :: l'))) as H2 by (apply in_map; left; reflexivity). rewrite Eu in H1, H2. apply repeat_spec in H1. apply repeat_spec in H2. congruence. }
      assert (Hw : written [a] = written [d]) by (unfold written; cbn [map]; rewrite Hsym; reflexivity). unfold is_states in Hs36. rewrite Forall_forall in Hs36. apply written_inj in Hw; [congruence|..]; (constructor; [apply Hs36|constructor]); [exact Ha|left; reflexivity]. }
    assert (Hl : d :: l' = repeat d (Z.to_nat (2 * r + 1))).
    { rewrite <- (map_id (d :: l')). rewrite (map_const_in (fun x => x) d _ Hall). f_equal. lia. }
    assert (Hd : 0 <= d < k) by (rewrite Forall_forall in Hl1; apply Hl1; left; reflexivity).
    specialize (Hsq d Hd). rewrite <- Hl in Hsq. unfold look_up in Hsq. rewrite Hin in Hsq. subst v. split; [exact Hd|rewrite <- Hl; reflexivity]. }
  exists t', (lam ratio k r q t'). split; [exact E|]. split; [exact El|]. rewrite Hr1. unfold lam in Hcases |- *. fold K in Hcases |- *. clear El E.
  destruct Hcases as [[Hstop ->]|[(Hgt & Hw & _ & Hend)|(Hlt & Hw & _ & Hend)]].
  - assert (He : ratio (K - entries_equal t q) K == target).
    { destruct Hstop as [He|[H1 H2]]; [apply Qeq_bool_iff, He|]. apply less_false in H1. apply less_false in H2. lra. }
    rewrite He. lra.
  - assert (Hle : (ratio (K - entries_equal t' q) K <= target)%Q).
    { destruct Hend as [Hf|Hno]; [apply less_false, Hf|]. eapply Qle_trans; [|exact Hlo]. apply Hmono. rewrite <- Hlen', (proj2 (entries_filter t' q)).
      replace (k - 1) with (Z.of_nat (length (map (fun d => written (repeat d (Z.to_nat (2 * r + 1)))) (zrange 0 q ++ zrange (q + 1) k)))) by (rewrite map_length, app_length, !length_zrange; lia).
      apply inj_le, few_keys; [exact Hnd'|]. intros s v Hin Hv. cbn [snd] in Hv. apply negb_true_iff, Z.eqb_neq in Hv.
      destruct (one_symbol s) eqn:Eu; [apply one_symbol_spec in Eu|].
      - destruct (Huni s v Hin Eu) as [Hv' ->]. apply in_map_iff. exists v. split; [reflexivity|]. apply in_or_app. rewrite !in_zrange. lia.
      - exfalso. apply (Hno s). split; [exists v; split; [apply (dget_in _ _ _ Hnd' Hin)|exact Hv]|]. intros _ Hu. apply one_symbol_spec in Hu. congruence. }
    split; [|lra]. assert (Hone : forall v w, v <> q -> w = q -> is_q q w - is_q q v = 1) by (intros v w Hv ->; unfold is_q; destruct (Z.eq_dec q q), (Z.eq_dec v q); try lia; contradiction).
    destruct (walk_last true _ _ _ q 1 Hone t t' Hw Hnd) as [->|(tl & Hg & He)].
    + apply less_true in Hgt. lra.
    + apply less_true in Hg. rewrite He. replace (K - (entries_equal tl q + 1)) with (K - entries_equal tl q + -1) by lia. rewrite Hadd. assert (Hm1 : ratio (-1) K == - / inject_Z K) by (unfold ratio; change (inject_Z (-1)) with (-1)%Q; field; lra). rewrite Hm1. lra.
  - assert (Hge : (target <= ratio (K - entries_equal t' q) K)%Q).
    { destruct Hend as [Hf|Hno]; [apply less_false, Hf|]. eapply Qle_trans; [exact Hhi|]. apply Hmono. rewrite (proj1 (entries_filter t' q)).
      assert (length (filter (fun p => (snd p =? q)%Z) t') <= length [written (repeat q (Z.to_nat (2 * r + 1)))])%nat; [|cbn [length] in *; lia].
      apply few_keys; [exact Hnd'|]. intros s v Hin Hv. cbn [snd] in Hv. apply Z.eqb_eq in Hv. subst v.
      destruct (one_symbol s) eqn:Eu; [apply one_symbol_spec in Eu|].
      - destruct (Huni s q Hin Eu) as [Hv' ->]. left. reflexivity.
      - exfalso. apply (Hno s). split; [exists q; split; [apply (dget_in _ _ _ Hnd' Hin)|reflexivity]|]. intros _ Hu. apply one_symbol_spec in Hu. congruence. }
    split; [lra|]. assert (Hone : forall v w, v = q -> 0 <= w < k /\ w <> q -> is_q q w - is_q q v = -1) by (intros v w -> [_ Hv]; unfold is_q; destruct (Z.eq_dec q q), (Z.eq_dec w q); try lia; contradiction).
    destruct (walk_last true _ _ _ q (-1) Hone t t' Hw Hnd) as [->|(tl & Hg & He)].
    + apply less_true in Hlt. lra.
    + apply less_true in Hg. rewrite He. replace (K - (entries_equal tl q + -1)) with (K - entries_equal tl q + 1) by lia. rewrite Hadd, Hr1. lra.
Qed.
Print Assumptions C127_lambda_reached.

(** the walk-through script does not ask table_walk_through to keep left and right the same, and the walk may undo it *)
Theorem C127_walk_keeps_sides_refuted : exists coin pick0 pick t lam q t' lam' l,
  random_rule_table ratio coin pick0 2 1 None 0 true true = Ok (t, lam, q) /\ table_walk_through ratio less Qeq_bool pick (S (length t)) t (1 # 2) 2 1 q true false = Ok (t', lam') /\
  blind_to_side 2 1 (look_up t) /\ neighbourhood 2 1 l /\ look_up t' (rev l) <> look_up t' l.
Proof.
  destruct (random_table_look ratio (fun _ => true) (fun _ => 0%nat) 2 1 0 ltac:(lia) ltac:(lia) ltac:(lia)) as (t & E & _ & _ & _ & Hb).
  destruct (table_walk_through ratio less Qeq_bool (fun i => 0%nat) (S (length t)) t (1 # 2) 2 1 0 true false) as [[t' lam']|e] eqn:E'.
  - exists (fun _ => true), (fun _ => 0%nat), (fun _ => 0%nat), t, (ratio (2 ^ (2 * 1 + 1) - entries_equal t 0) (2 ^ (2 * 1 + 1))), 0, t', lam', [0; 0; 1]. split; [exact E|]. split; [exact E'|]. split; [exact Hb|]. split; [split; [repeat constructor; lia|reflexivity]|].
    apply (f_equal (fun x => match x with Ok (t, _, _) => t | Err _ => [] end)) in E. rewrite <- E in E'. vm_compute in E'. apply (f_equal (fun x => match x with Ok (t, _) => t | Err _ => [] end)) in E'. rewrite <- E'. vm_compute. discriminate.
  - exfalso. apply (f_equal (fun x => match x with Ok (t, _, _) => t | Err _ => [] end)) in E. rewrite <- E in E'. vm_compute in E'. discriminate E'.
Qed.
Print Assumptions C127_walk_keeps_sides_refuted.

(** so the script prints the three values that it asks for, up to one entry in 4 ^ 5 *)
Section Near.
  Context {U I BA BN : Type} (W : env Z Z Z BA BN).
  Hypothesis Hlab : forall i, e_lab W i = Z.of_nat i.

  Theorem C127_walk_near : forall coin pick0 pick qdraw rand fuel (u0 : U) k r n T vals, 2 <= k <= 10 -> 0 <= r -> 3 <= n -> 2 * r + 1 <= n -> 1 <= T -> (Z.to_nat T <= fuel)%nat ->
    0 <= qdraw < k -> (forall i, draws (rand i)) ->
    Forall (fun x => (ratio (k - 1) (k ^ (2 * r + 1)) <= x)%Q /\ (x <= ratio (k ^ (2 * r + 1) - 1) (k ^ (2 * r + 1)))%Q) vals ->
    exists t outs, walkthrough_demo (I := I) W fuel u0 ratio less Qeq_bool coin pick0 pick qdraw rand k r n T vals = Ok (t, outs) /\
      Forall2 (fun x out => ((x - ratio 1 (k ^ (2 * r + 1)) < fst out)%Q /\ (fst out < x + ratio 1 (k ^ (2 * r + 1)))%Q) /\ shown_table ratio k r n qdraw T out) vals outs.
  Proof.
    intros coin pick0 pick qdraw rand fuel u0 k r n T vals Hk Hr Hn H2r HT Hf Hq Hrand Hv.
    apply (walk_script_gen W Hlab Q ratio less Qeq_bool coin pick0 pick qdraw rand fuel u0 k r n T vals (fun x l => (x - ratio 1 (k ^ (2 * r + 1)) < l)%Q /\ (l < x + ratio 1 (k ^ (2 * r + 1)))%Q) Hk Hr Hn H2r HT Hf Hq Hrand).
    intros t x i Hx Hc Hsq. rewrite Forall_forall in Hv. destruct (Hv x Hx) as [H1 H2].
    destruct (C127_lambda_reached (pick i) t x k r qdraw ltac:(lia) Hr Hq Hc Hsq H1 H2) as (t' & l & E & _ & H3). exists t', l. split; [exact E|exact H3].
  Qed.
End Near.
Print Assumptions C127_walk_near.

(** the values of the script can be reached; draws exist; a small run *)
Example C127_example :
  Forall (fun x => (ratio (4 - 1) (4 ^ (2 * 2 + 1)) <= x)%Q /\ (x <= ratio (4 ^ (2 * 2 + 1) - 1) (4 ^ (2 * 2 + 1)))%Q) [15 # 100; 37 # 100; 75 # 100] /\
  (exists t lam, random_rule_table ratio (fun i => Nat.even i) (fun i => i) 3 1 None 1 true true = Ok (t, lam, 1) /\ map (look_up t) [[0; 0; 1]; [1; 0; 0]; [2; 2; 2]; [0; 0; 0]; [1; 1; 1]] = [2; 2; 2; 0; 1]) /\
  ring_picture (fun l => match l with [1; 0; 0] | [0; 0; 1] => 1 | [0; 1; 0] => 1 | [1; 1; 1] => 1 | _ => 0 end) 7 1 (fun v => if v =? 3 then 1 else 0) 3 = [[0; 0; 0; 1; 0; 0; 0]; [0; 0; 1; 1; 1; 0; 0]; [0; 1; 0; 1; 0; 1; 0]].
Proof.
  split; [repeat constructor; vm_compute; discriminate|]. split; [|reflexivity].
  destruct (random_rule_table ratio (fun i => Nat.even i) (fun i => i) 3 1 None 1 true true) as [[[t lam] q]|e] eqn:E; vm_compute in E; [|discriminate E].
  injection E as <- <- <-. eexists. eexists. split; [reflexivity|]. vm_compute. reflexivity.
Qed.
Example C127_draws : draws (fun k m => repeat (k - 1) (Z.to_nat m)).
Proof. intros k m Hk Hm. split; [rewrite repeat_length; lia|]. apply Forall_forall. intros a Ha. apply repeat_spec in Ha. lia. Qed.
