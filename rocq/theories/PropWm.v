(** C124: the run of the Wolfram physics demo. *)
From Coq Require Import Permutation.
From Verif Require Import Py PyFacts ListFacts Network NetworkSpec NetworkProofs Evolve EvolveProofs WolframSpec Wolfram WolframProofs WolframProofs2 WolframProofs3 WolframRun WmSpec WolframDemo.
Open Scope Z_scope.

Lemma instance3 (f : Z -> option Z) p q s u v w : instance f [p; q; s] [u; v; w] <-> f p = Some u /\ f q = Some v /\ f s = Some w.
Proof. unfold instance. cbn. split; [intros E; injection E; auto|intros (-> & -> & ->); reflexivity]. Qed.
Lemma instance_triple (f : Z -> option Z) p q s r : instance f [p; q; s] r -> exists u v w, r = [u; v; w] /\ f p = Some u /\ f q = Some v /\ f s = Some w.
Proof. intros Hi. destruct r as [|u [|v [|w [|x r]]]]; try discriminate. exists u, v, w. split; [reflexivity|]. apply instance3. assumption. Qed.

Lemma emit_bound last (b : dict Z Z) cfg p q s u v w : dget b p = Some u -> dget b q = Some v -> dget b s = Some w -> emit_rule (last, b, cfg) [p; q; s] = (last, b, cfg ++ [[u; v; w]]).
Proof. intros E1 E2 E3. cbn. rewrite E1. cbn. rewrite E2. cbn. rewrite E3. reflexivity. Qed.
Lemma emit_fresh last (b : dict Z Z) cfg p q s v w : dget b p = None -> p <> q -> p <> s -> dget b q = Some v -> dget b s = Some w -> emit_rule (last, b, cfg) [p; q; s] = (last + 1, dset b p (last + 1), cfg ++ [[last + 1; v; w]]).
Proof. intros E1 N1 N2 E2 E3. cbn. rewrite E1. cbn. rewrite (dget_dset_ne b p q), E2 by congruence. cbn. rewrite (dget_dset_ne b p s), E3 by congruence. reflexivity. Qed.

Lemma wm_emit last b cfg u bb x y part : dget b 1 = Some u -> dget b 2 = Some bb -> dget b 3 = Some x -> dget b 4 = Some y -> dget b 5 = None ->
  snd (emit_group wm_out (last, cfg) (part, b)) = cfg ++ [[u; u; y]; [last + 1; y; x]; [bb; last + 1; u]].
Proof.
  intros E1 E2 E3 E4 E5. unfold emit_group, wm_out. cbn [fold_left snd]. rewrite (emit_bound _ _ _ 1 1 4 u u y) by assumption. rewrite (emit_fresh _ _ _ 5 4 3 y x) by (assumption || lia).
  rewrite (emit_bound _ _ _ 2 5 1 bb (last + 1) u); [cbn; rewrite <- !app_assoc; reflexivity| | |].
  - rewrite dget_dset_ne by lia. assumption.
  - apply dget_dset_eq.
  - rewrite dget_dset_ne by lia. assumption.
Qed.

(** the first scan finds the loop and a relation that ends in 1 *)
Lemma wm_scan c b rest : Permutation c ([1; 1; b] :: rest) -> Forall (fun r => triple r /\ loop_rel r = false) rest -> (exists x y, In [x; y; 1] rest) ->
  exists x y c2 b2, fold_left (scan_rule 2) wm_in (mkScan c [] [] [] true) = mkScan c2 [] [([[1; 1; b]; [x; y; 1]], b2)] b2 true /\
    Permutation rest ([x; y; 1] :: c2) /\ dget b2 1 = Some 1 /\ dget b2 2 = Some b /\ dget b2 3 = Some x /\ dget b2 4 = Some y /\ dget b2 5 = None.
Proof.
  intros Hp Hr (x0 & y0 & Hin0). rewrite Forall_forall in Hr. unfold wm_in. cbn [fold_left].
  pose proof (find_relation_spec [1; 1; 2] c []) as F1. unfold scan_rule at 2. cbn [sc_b sc_rels sc_partial sc_matched]. destruct (find_relation [1; 1; 2] [] c) as [[r1|] b1].
  2:{ exfalso. destruct F1 as [_ F1]. apply (F1 [1; 1; b] (fun s => if s =? 1 then Some 1 else Some b)); [eapply Permutation_in; [symmetry; exact Hp|left; reflexivity]|intros s m E; discriminate|]. apply instance3. cbn. auto. }
  destruct F1 as (F1 & _ & F2 & F3). apply instance_triple in F2. destruct F2 as (u & v & w & -> & D1 & D2 & D3). assert (v = u) by congruence. subst v.
  assert (E1 : u = 1 /\ w = b). { eapply Permutation_in in F1; [|exact Hp]. destruct F1 as [E|F1]; [split; congruence|]. destruct (Hr _ F1) as [_ Hl]. cbn in Hl. rewrite Z.eqb_refl in Hl. discriminate. }
  destruct E1 as [-> ->]. pose proof (remove_first_perm _ _ F1) as P1. set (c1 := remove_first [1; 1; b] c) in *. assert (P2 : Permutation c1 rest) by (eapply Permutation_cons_inv; rewrite <- P1; exact Hp).
  cbn [length app Nat.eqb]. unfold scan_rule. cbn [sc_b sc_rels sc_partial sc_matched sc_go].
  pose proof (find_relation_spec [3; 4; 1] c1 b1) as F4. destruct (find_relation [3; 4; 1] b1 c1) as [[r2|] b2].
  2:{ exfalso. destruct F4 as [_ F4]. apply (F4 [x0; y0; 1] (fun s => match dget b1 s with Some m => Some m | None => if s =? 3 then Some x0 else Some y0 end)); [eapply Permutation_in; [symmetry; exact P2|assumption]|intros s m ->; reflexivity|].
      assert (N3 : dget b1 3 = None) by (destruct (dget b1 3) eqn:E; [|reflexivity]; exfalso; destruct (proj1 (F3 3)) as [Q|[|[|[|[]]]]]; [congruence|apply Q; reflexivity|lia..]). assert (N4 : dget b1 4 = None) by (destruct (dget b1 4) eqn:E; [|reflexivity]; exfalso; destruct (proj1 (F3 4)) as [Q|[|[|[|[]]]]]; [congruence|apply Q; reflexivity|lia..]).
      apply instance3. rewrite N3, N4, D1. auto. }
  destruct F4 as (F4 & Fe & F5 & F6). apply instance_triple in F5. destruct F5 as (x & y & z & -> & D4 & D5 & D6). assert (z = 1) by (pose proof (Fe _ _ D1); congruence). subst z.
  pose proof (remove_first_perm _ _ F4) as P3. exists x, y, (remove_first [x; y; 1] c1), b2. split; [reflexivity|]. split; [rewrite <- P2; assumption|]. split; [assumption|]. split; [apply Fe; assumption|]. split; [assumption|]. split; [assumption|].
  destruct (dget b2 5) eqn:E; [|reflexivity]. exfalso. destruct (proj1 (F6 5)) as [H|[|[|[|[]]]]]; [congruence| |lia..]. destruct (proj1 (F3 5) H) as [Q|[|[|[|[]]]]]; [apply Q; reflexivity|lia..].
Qed.

(** the matching takes place once *)
Lemma wm_event fuel n c b rest : Permutation c ([1; 1; b] :: rest) -> Forall (fun r => triple r /\ loop_rel r = false) rest -> (exists x y, In [x; y; 1] rest) -> (length c < fuel)%nat ->
  exists new, rewrite_config fuel wm_in wm_out n c = Ok new /\ event n c new.
Proof.
  intros Hp Hr Hin Hf. destruct (wm_scan c b rest Hp Hr Hin) as (x & y & c2 & b2 & Est & P3 & D1 & D2 & D3 & D4 & D5). rewrite Forall_forall in Hr. destruct fuel as [|f]; [lia|]. unfold rewrite_config. cbn [scan_loop].
  change (length wm_in) with 2%nat. rewrite Est. cbn [sc_go sc_rels sc_partial sc_matched app].
  destruct (scan_loop f wm_in c2 [] [([[1; 1; b]; [x; y; 1]], b2)]) as [[[rels un] ms]|e] eqn:Es.
  2:{ exfalso. destruct (scan_loop_terminates wm_in ltac:(discriminate) f c2 [] [([[1; 1; b]; [x; y; 1]], b2)]) as [r Er]; [|congruence]. apply Permutation_length in Hp, P3. cbn in Hp, P3. lia. }
  cbn [rbind]. destruct (scan_loop_sound _ _ _ _ _ _ _ _ Es) as (gs & -> & Hg & Hq). rewrite app_nil_r in Hq.
  assert (gs = []).
  { destruct gs as [|[part bb] gs]; [reflexivity|]. exfalso. apply Forall_inv in Hg. destruct Hg as [Hg _]. cbn [fst snd] in Hg. unfold wm_in in Hg. inversion Hg as [|p r l l' Hi Hg' Ep Epart]. subst part.
    apply instance_triple in Hi. destruct Hi as (u & v & w & -> & I1 & I2 & _). assert (v = u) by congruence. subst v.
    assert (Hu : In [u; u; w] rest). { eapply Permutation_in; [symmetry; exact P3|]. right. eapply Permutation_in; [symmetry; exact Hq|]. cbn. auto. }
    destruct (Hr _ Hu) as [_ Hl]. cbn in Hl. rewrite Z.eqb_refl in Hl. discriminate. }
  subst gs. cbn [concat map app fold_left] in *.
  eexists. split; [reflexivity|]. rewrite (wm_emit n b2 (rels ++ un) 1 b x y _ D1 D2 D3 D4 D5).
  exists b, x, y, c2. split; [rewrite Hp; constructor; assumption|]. rewrite <- Hq. rewrite Permutation_app_comm. reflexivity.
Qed.

Definition wm_second : config := [[1; 1; 1]; [2; 1; 1]; [1; 2; 1]].
Lemma wm_first fuel : (2 < fuel)%nat -> rewrite_config fuel wm_in wm_out 1 wm_config = Ok wm_second /\ event 1 wm_config wm_second.
Proof. intros Hf. destruct fuel as [|[|[|f]]]; try lia. split; [reflexivity|]. exists 1, 1, 1, []. split; reflexivity. Qed.

(** ** the shape of the configurations *)
Lemma joined_perm c c' u v : Permutation c c' -> joined c u v -> joined c' u v.
Proof. intros Hp. induction 1 as [|v w r _ IH Hr Hv Hw]; [constructor|]. econstructor; [exact IH|eapply Permutation_in; eassumption|assumption|assumption]. Qed.
Lemma loops_perm c c' r : Permutation c c' -> loops c = [r] -> loops c' = [r].
Proof. intros Hp E. apply Permutation_length_1_inv. rewrite <- E. apply Permutation_filter. assumption. Qed.
Lemma in_concat_iff (c c' : config) z : Permutation c c' -> In z (concat c) <-> In z (concat c').
Proof. intros Hp. apply concat_perm in Hp. split; apply Permutation_in; [assumption|symmetry; assumption]. Qed.

Lemma shape_perm n c c' : Permutation c c' -> shape n c -> shape n c'.
Proof.
  intros Hp Hs. destruct Hs as [H1 H2 H3 H4 H5 (x & y & H6 & H6') H7]. split.
  - assumption.
  - rewrite <- (Permutation_length Hp). assumption.
  - intros r Hr. apply H3. eapply Permutation_in; [symmetry; exact Hp|assumption].
  - intros z. rewrite <- H4. symmetry. apply in_concat_iff. assumption.
  - intros z Hz. eapply joined_perm; [exact Hp|auto].
  - exists x, y. split; [eapply Permutation_in; eassumption|assumption].
  - intros Hn. destruct (H7 Hn) as [b Hb]. exists b. eapply loops_perm; eassumption.
Qed.

Lemma shape_start : shape 1 wm_config.
Proof.
  split; [lia|reflexivity| | | | |lia].
  - intros r [<-|[<-|[]]]; exists 1, 1, 1; reflexivity.
  - intros z. cbn. lia.
  - intros z Hz. replace z with 1 by lia. constructor.
  - exists 1, 1. split; [left; reflexivity|lia].
Qed.

Lemma filter_single_in {X} (p : X -> bool) l x : filter p l = [x] -> In x l.
Proof. intros E. assert (Hx : In x (filter p l)) by (rewrite E; left; reflexivity). apply filter_In in Hx. apply Hx. Qed.

Lemma in3 (z u v w : Z) l : In z (concat ([u; v; w] :: l)) <-> z = u \/ z = v \/ z = w \/ In z (concat l).
Proof. cbn. intuition. Qed.

(** an event makes a connected configuration grow by one node and one relation *)
Lemma event_shape n c new : shape n c -> event n c new -> shape (n + 1) new.
Proof.
  intros Hs (b & x & y & rest & Hold & Hnew). apply (shape_perm _ _ _ Hold) in Hs. eapply shape_perm; [symmetry; exact Hnew|]. clear Hold Hnew. destruct Hs as [H1 H2 H3 H4 H5 _ H7].
  assert (Hb : 1 <= b <= n) by (apply H4; rewrite in3; auto). assert (Hx : 1 <= x <= n) by (apply H4; rewrite !in3; tauto). assert (Hy : 1 <= y <= n) by (apply H4; rewrite !in3; tauto).
  assert (Hloops : loops rest = []).
  { destruct (Z.eq_dec n 1) as [->|]; [|destruct H7 as [b' Hl]; [lia|]; unfold loops in Hl; cbn [filter loop_rel] in Hl; change (1 =? 1) with true in Hl; cbn iota in Hl; destruct (x =? y); [discriminate|injection Hl as _ Hl; exact Hl]].
    cbn in H2. destruct rest; [reflexivity|cbn in H2; lia]. }
  assert (Ha : forall z, z = 1 \/ z = y \/ z = n + 1 \/ z = x \/ z = b -> joined ([1; 1; y] :: [n + 1; y; x] :: [b; n + 1; 1] :: rest) 1 z).
  { assert (J1 : joined ([1; 1; y] :: [n + 1; y; x] :: [b; n + 1; 1] :: rest) 1 1) by constructor.
    intros z [->|[->|[->|[->| ->]]]]; [assumption|..].
    - apply (joined_step _ _ 1 y [1; 1; y]); cbn; auto.
    - apply (joined_step _ _ 1 (n + 1) [b; n + 1; 1]); cbn; auto.
    - apply (joined_step _ _ y x [n + 1; y; x]); cbn; auto. apply (joined_step _ _ 1 y [1; 1; y]); cbn; auto.
    - apply (joined_step _ _ 1 b [b; n + 1; 1]); cbn; auto. }
  split.
  - lia.
  - cbn [length] in *. lia.
  - intros r [<-|[<-|[<-|Hr]]]; [exists 1, 1, y; reflexivity|exists (n + 1), y, x; reflexivity|exists b, (n + 1), 1; reflexivity|]. apply H3. right. right. assumption.
  - intros z. specialize (H4 z). rewrite !in3 in *. split; [intros Hz|intros Hz; destruct (Z.eq_dec z (n + 1)); tauto || (assert (1 <= z <= n) by lia; tauto)].
    decompose [or] Hz; try lia. assert (1 <= z <= n) by tauto. lia.
  - intros z Hz. destruct (Z.eq_dec z (n + 1)) as [->|Hne]; [apply Ha; auto|]. specialize (H5 z ltac:(lia)). clear Hz Hne. induction H5 as [|v w r _ IH Hr Hv Hw]; [constructor|]. destruct Hr as [<-|[<-|Hr]].
    + apply Ha. cbn in Hw. intuition.
    + apply Ha. cbn in Hw. intuition.
    + econstructor; [exact IH|right; right; right; exact Hr|assumption|assumption].
  - exists b, (n + 1). split; [cbn; auto|lia].
  - intros _. exists y. unfold loops in *. cbn [filter loop_rel]. change (1 =? 1) with true. destruct (Z.eqb_spec (n + 1) y); [lia|]. destruct (Z.eqb_spec b (n + 1)); [lia|]. rewrite Hloops. reflexivity.
Qed.

Lemma shape_max n c : shape n c -> fold_left Z.max (concat c) 0 = n.
Proof.
  intros Hs. pose proof (sh_nodes _ _ Hs) as H4. pose proof (sh_pos _ _ Hs). assert (n <= fold_left Z.max (concat c) 0) by (apply fold_max_ge; right; apply H4; lia).
  destruct (fold_max_in (concat c) 0) as [E|Hin]; [lia|]. apply H4 in Hin. lia.
Qed.

(** from a configuration of this shape the topology rule makes one event *)
Lemma shape_event fuel n c : shape n c -> (2 <= n \/ Permutation wm_config c) -> (length c < fuel)%nat -> exists new, rewrite_config fuel wm_in wm_out n c = Ok new /\ event n c new.
Proof.
  intros Hs [Hn|Hp] Hf.
  - destruct (sh_loops _ _ Hs Hn) as [b Hb]. pose proof (filter_single_in _ _ _ Hb) as Hin. apply in_split in Hin. destruct Hin as (l1 & l2 & Ec).
    assert (Hp : Permutation c ([1; 1; b] :: l1 ++ l2)) by (rewrite Ec; symmetry; apply Permutation_middle). apply (wm_event fuel n c b (l1 ++ l2) Hp); [| |assumption].
    + apply Forall_forall. intros r Hr. split; [apply (sh_triples _ _ Hs); eapply Permutation_in; [symmetry; exact Hp|right; assumption]|].
      pose proof (loops_perm _ _ _ Hp Hb) as Hl. unfold loops in Hl. cbn [filter loop_rel] in Hl. change (1 =? 1) with true in Hl. cbn iota in Hl. injection Hl as Hl. destruct (loop_rel r) eqn:E; [|reflexivity]. exfalso. assert (Hr' : In r (filter loop_rel (l1 ++ l2))) by (apply filter_In; auto). rewrite Hl in Hr'. destruct Hr'.
    + destruct (sh_back _ _ Hs) as (x & y & Hin & Hne). eapply Permutation_in in Hin; [|exact Hp]. destruct Hin as [E|Hin]; [exfalso; apply (Hne Hn); congruence|eauto].
  - apply Permutation_length_2_inv in Hp. assert (c = wm_config) by (destruct Hp; assumption). subst c. cbn in Hf. pose proof (shape_max _ _ Hs) as Hm. cbn in Hm. subst n. exists wm_second. apply wm_first. lia.
Qed.

Definition P124 (k : nat) (c : config) : Prop := shape (Z.of_nat k + 1) c /\ (k = 0%nat -> Permutation wm_config c).

Section C124.
  Context {A BA BN I : Type} `{EqD A} (W : env Z aval A BA BN).

  (** one timestep is one event, whatever the order of the relations *)
  Theorem C124_step fuel n c : shape n c -> 2 <= n -> (length c < fuel)%nat -> exists new, rewrite_config fuel wm_in wm_out (fold_left Z.max (concat c) 0) c = Ok new /\ event n c new /\ shape (n + 1) new.
  Proof.
    intros Hs Hn Hf. rewrite (shape_max _ _ Hs). destruct (shape_event fuel n c Hs (or_introl Hn) Hf) as (new & E & He). exists new. split; [assumption|]. split; [assumption|]. eapply event_shape; eassumption.
  Qed.

  (** T timesteps of the demo: state i shows i + 2 triples on the nodes 1 .. i + 1, all connected, with one loop from i = 1 on; every timestep is one event *)
  Theorem C124_run T fuel f : 1 <= T -> T + 2 < Z.of_nat fuel -> T <= Z.of_nat f ->
    exists uf traj configs, wm_run (I := I) W fuel f T = Ok (uf, traj) /\
      Forall2 (fun st c => exists net, state_network W st = Ok (Some net) /\ network_to_config net = Ok c) traj configs /\ Z.of_nat (length configs) = T /\
      (forall i c, nth_error configs i = Some c -> length c = (i + 2)%nat /\ (forall r, In r c -> length r = 3%nat) /\ (forall z, In z (concat c) <-> 1 <= z <= Z.of_nat i + 1) /\
        (forall u, In u (concat c) -> joined c 1 u) /\ ((1 <= i)%nat -> exists b, loops c = [[1; 1; b]]) /\ (i = 0%nat -> c = wm_config)) /\
      (forall i c c', nth_error configs i = Some c -> nth_error configs (i + 1) = Some c' -> event (Z.of_nat i + 1) c c').
  Proof.
    intros HT Hf1 Hf2. destruct (inv_run wm_in wm_out P124 (fun k => (k + 2)%nat)) with (I := I) (H0 := H) (W := W) (k := 0%nat) (cfg := wm_config) (T := T) as (m & Em & Hrun).
    - intros k c c' Hp [Hs Hk]. split; [eapply shape_perm; eassumption|]. intros E. rewrite (Hk E). assumption.
    - intros k c [Hs _]. pose proof (sh_len _ _ Hs) as Hl. split; [intros ->; cbn in Hl; lia|]. split; [|lia]. apply Forall_forall. intros r Hr. destruct (sh_triples _ _ Hs r Hr) as (u & v & w & ->). reflexivity.
    - intros k c fl [Hs Hk] Hfl. rewrite (shape_max _ _ Hs). destruct (shape_event fl _ _ Hs) as (new & E & He); [destruct k; [auto|left; lia]|assumption|]. exists new. split; [assumption|]. split; [|discriminate]. replace (Z.of_nat (Datatypes.S k) + 1) with (Z.of_nat k + 1 + 1) by lia. eapply event_shape; eassumption.
    - split; [apply shape_start|reflexivity].
    - assumption.
    - destruct (Hrun fuel (wm_args fuel) f) as (uf & traj & configs & E & Hsh & Hlen & HP & Hch); [intros i Hi; lia|repeat split|assumption|]. exists uf, traj, configs. split; [unfold wm_run; rewrite Em; exact E|]. split; [assumption|]. split; [assumption|]. split.
      + intros i c Ei. destruct (HP i c Ei) as [Hs Hk]. cbn [Nat.add] in Hs, Hk. pose proof (sh_len _ _ Hs). split; [lia|]. split; [intros r Hr; destruct (sh_triples _ _ Hs r Hr) as (u & v & w & ->); reflexivity|]. split; [apply (sh_nodes _ _ Hs)|].
        split; [intros u Hu; apply (sh_joined _ _ Hs), (sh_nodes _ _ Hs); assumption|]. split; [intros Hi; apply (sh_loops _ _ Hs); lia|]. intros Hi. specialize (Hk Hi). apply Permutation_length_2_inv in Hk. destruct Hk; assumption.
      + intros i c c' Ei Ei'. rewrite Nat.add_1_r in Ei'. destruct (Hch i c c' Ei Ei') as (new & En & Hp). destruct (HP i c Ei) as [Hs Hk]. cbn [Nat.add] in Hs, Hk. rewrite (shape_max _ _ Hs) in En.
        destruct (shape_event fuel _ _ Hs) as (new' & E' & (b & x & y & rest & O1 & O2)); [destruct i; [auto|left; lia]|pose proof (sh_len _ _ Hs); assert (i < length configs)%nat by (apply nth_error_Some; congruence); lia|]. rewrite En in E'. injection E' as <-.
        exists b, x, y, rest. split; [assumption|]. rewrite Hp. assumption.
  Qed.

  (** wolfram_physics_demo.py:13-17: after the 198 timesteps the last state of the trajectory shows 199 relations on 198 nodes *)
  Theorem C124_script fuel f : 200 < Z.of_nat fuel -> 198 <= Z.of_nat f ->
    exists uf traj st net c, wm_run (I := I) W fuel f 198 = Ok (uf, traj) /\ length traj = 198%nat /\ nth_error traj 197 = Some st /\ state_network W st = Ok (Some net) /\ network_to_config net = Ok c /\
      length c = 199%nat /\ (forall z, In z (concat c) <-> 1 <= z <= 198) /\ (forall u, In u (concat c) -> joined c 1 u) /\ (exists b, loops c = [[1; 1; b]]).
  Proof.
    intros H1 H2. destruct (C124_run 198 fuel f) as (uf & traj & configs & E & Hsh & Hlen & HP & _); try lia. assert (Hl : length traj = length configs) by (apply (Forall2_len _ _ _ Hsh)).
    assert (H197 : (197 < length configs)%nat) by lia. destruct (nth_error configs 197) as [c|] eqn:Ec; [|apply nth_error_Some in H197; congruence]. destruct (nth_error traj 197) as [st|] eqn:Es; [|apply nth_error_None in Es; lia].
    assert (Hst : exists net, state_network W st = Ok (Some net) /\ network_to_config net = Ok c).
    { clear -Hsh Ec Es. revert Ec Es. generalize 197%nat. induction Hsh as [|a b la lb Hab _ IH]; intros [|i] Ec Es; try discriminate; [injection Ec as <-; injection Es as <-; assumption|eapply IH; eassumption]. }
    destruct Hst as (net & N1 & N2). destruct (HP _ _ Ec) as (G1 & _ & G3 & G4 & G5 & _). exists uf, traj, st, net, c. split; [assumption|]. split; [lia|]. split; [exact Es|]. split; [assumption|]. split; [assumption|]. split; [assumption|]. split; [exact G3|]. split; [assumption|]. apply G5. lia.
  Qed.
End C124.
Print Assumptions C124_step. Print Assumptions C124_run. Print Assumptions C124_script.

Definition WZ : env Z aval Z unit unit := mkEnv Z.of_nat (fun z => Some z) AInt (fun _ => Ok tt) (fun _ => Ok []) (fun _ => Ok tt) (fun _ => Ok empty_network).
Definition wm_configs (T : Z) : res (list config) := ' (_, traj) <- wm_run (I := unit) WZ 300 300 T ;; rmap (fun st => o <- state_network WZ st ;; n <- of_opt TypeError o ;; network_to_config n) traj.
Example C124_four : wm_configs 4 = Ok [[[1; 1; 1]; [1; 1; 1]]; [[1; 1; 1]; [2; 1; 1]; [1; 2; 1]]; [[1; 2; 1]; [1; 1; 1]; [3; 1; 2]; [1; 3; 1]]; [[3; 1; 2]; [1; 3; 1]; [1; 1; 2]; [4; 2; 1]; [1; 4; 1]]].
Proof. vm_compute. reflexivity. Qed.
Example C124_step_nonvacuous : shape 2 wm_second /\ (length wm_second < 4)%nat.
Proof. split; [|cbn; lia]. apply (event_shape 1 wm_config); [apply shape_start|]. apply (wm_first 3). lia. Qed.
Example C124_run_nonvacuous : 200 < Z.of_nat 300 /\ 198 <= Z.of_nat 300. Proof. lia. Qed.
