(** Property theorems for the language recognizer of turing_machine_demo1b.py and turing_machine_demo2b.py (C102). *)
From Verif Require Import Py PyFacts ListFacts Network Topology Evolve EvolveSpec EvolveStatic PropEvolve Utils.
From Verif Require Import TuringSpec Turing TuringProofs TuringProofs2 PropTuring TmDemos TmZipper TmLangProofs.
Open Scope list_scope.
Open Scope Z_scope.

(** ** C102. The machine accepts exactly the words a^n b^n c^n *)

(** a word over the three letters *)
Definition letters (w : list sym) : Prop := forall x, In x w -> x = cell_a \/ x = cell_b \/ x = cell_c.
(** the word with [l] blanks before and [r] blanks after *)
Definition tape_of (l : nat) (w : list sym) (r : nat) : list sym := repeat blank l ++ w ++ repeat blank r.
(** steps after which the machine has settled *)
Definition limit (w : list sym) : nat := (2 * length w * length w + 2 * length w + 3)%nat.

Lemma tape_zip l w r : (0 < l)%nat -> (0 < r)%nat ->
  mkConf 0 (Z.of_nat l) (tape_of l w r) = zip 0 (repeat blank (l - 1) ++ [blank]) (w ++ blank :: repeat blank (r - 1)).
Proof.
  intros Hl Hr. unfold zip, tape_of. rewrite app_length, repeat_length. cbn [length]. rewrite <- repeat_cons.
  replace (l - 1 + 1)%nat with l by lia. change (blank :: repeat blank (l - 1)) with (repeat blank (S (l - 1))). change (blank :: repeat blank (r - 1)) with (repeat blank (S (r - 1))).
  replace (S (l - 1)) with l by lia. replace (S (r - 1)) with r by lia. reflexivity.
Qed.

Lemma settled l w r : (0 < l)%nat -> (0 < r)%nat -> letters w -> settles (mkConf 0 (Z.of_nat l) (tape_of l w r)) (limit w) w.
Proof. intros Hl Hr Hw. rewrite tape_zip by assumption. apply word_settles. exact Hw. Qed.

Lemma q6_stays c c' : cf_q c = 6 -> next anbncn c = Some c' -> cf_q c' = 6.
Proof.
  intros Eq. unfold next. rewrite Eq. destruct (nth_error _ _) as [s|]; [|discriminate].
  destruct (entry anbncn 6 s) as [[[q' s'] d]|] eqn:Ee; [|discriminate]. destruct (move d); [|discriminate]. intros E. injection E as <-. cbn [cf_q].
  unfold entry, anbncn in Ee. cbn [dget] in Ee. repeat match type of Ee with context[eqd ?a ?b] => destruct (eqd a b); cbn [dget] in Ee end; try discriminate; injection Ee; intros; subst; try reflexivity; congruence.
Qed.
Lemma q6_later k c c' : reach anbncn k c c' -> cf_q c = 6 -> cf_q c' = 6.
Proof. induction 1 as [|k c c1 c2 E _ IH]; intros Hc; [exact Hc|]. exact (IH (q6_stays _ _ Hc E)). Qed.

Section Word.
  Context (l r : nat) (w : list sym) (Hl : (0 < l)%nat) (Hr : (0 < r)%nat) (Hw : letters w).
  Let c0 := mkConf 0 (Z.of_nat l) (tape_of l w r).
  Notation aft k := (after anbncn k c0).

  Lemma runs_for_ever k : reach anbncn k c0 (aft k).
  Proof.
    destruct (settled l w r Hl Hr Hw) as (k0 & c' & Hk & _ & Hf & _). apply (reach_upto _ k (k0 + k) _ c'); [lia|].
    apply (reach_trans _ _ _ _ c'); [exact Hk|apply reach_fixed; exact Hf].
  Qed.
  Lemma settled_after k : (limit w <= k)%nat -> aft k = aft (limit w) /\ (cf_q (aft k) = 6 <-> in_language w).
  Proof.
    destruct (settled l w r Hl Hr Hw) as (k0 & c' & Hk & Hle & Hf & Hq).
    assert (E : forall j, (k0 <= j)%nat -> aft j = c').
    { intros j Hj. apply reach_after. replace j with (k0 + (j - k0))%nat by lia. apply (reach_trans _ _ _ _ c'); [exact Hk|apply reach_fixed; exact Hf]. }
    intros Hk'. rewrite (E k), (E (limit w)) by lia. split; [reflexivity|exact Hq].
  Qed.
  Lemma q6_sound k : cf_q (aft k) = 6 -> in_language w.
  Proof.
    intros Hk. destruct (settled_after (k + limit w) ltac:(lia)) as [_ Hq]. apply Hq.
    destruct (reach_split _ _ _ _ _ (runs_for_ever (k + limit w))) as (d & Hd & Hlim). rewrite <- (reach_after _ _ _ _ Hd) in Hlim.
    exact (q6_later _ _ _ Hlim Hk).
  Qed.
End Word.

(** The bare machine: it never lacks an entry, it stands still from step [limit w] on, and it is then in q6 exactly if the word is in the language. *)
Theorem C102_machine : forall l r w, (0 < l)%nat -> (0 < r)%nat -> letters w ->
  exists run : nat -> conf Z sym, run 0%nat = mkConf 0 (Z.of_nat l) (tape_of l w r) /\
    (forall k, next anbncn (run k) = Some (run (S k))) /\
    (forall k, (limit w <= k)%nat -> run k = run (limit w)) /\
    (cf_q (run (limit w)) = 6 <-> in_language w) /\
    (forall k, cf_q (run k) = 6 -> in_language w).
Proof.
  intros l r w Hl Hr Hw. exists (fun k => after anbncn k (mkConf 0 (Z.of_nat l) (tape_of l w r))). split; [reflexivity|].
  split; [|split; [|split]].
  - intros k. apply (reach_step anbncn k (S k) _ _ (Nat.lt_succ_diag_r k) (runs_for_ever l r w Hl Hr Hw (S k))).
  - intros k Hk. apply (settled_after l r w Hl Hr Hw k Hk).
  - apply (settled_after l r w Hl Hr Hw (limit w) ltac:(lia)).
  - intros k. apply (q6_sound l r w Hl Hr Hw).
Qed.
Print Assumptions C102_machine.

Lemma tape_length l w r : length (tape_of l w r) = (l + length w + r)%nat.
Proof. unfold tape_of. rewrite !app_length, !repeat_length. lia. Qed.
Lemma last_confs T c d : (0 < T)%nat -> last (confs anbncn T c) d = after anbncn (T - 1) c.
Proof. intros HT. unfold confs. destruct T as [|T]; [lia|]. rewrite seq_S, map_app. cbn [map]. rewrite last_last. replace (S T - 1)%nat with T by lia. reflexivity. Qed.

(** turing_machine_demo2b.py: evolving the tape-centric machine *)
Theorem C102_tape_centric : forall {BA BN I} (W : env Z Z sym BA BN) (g : @args Z Z sym (tape_centric Z) I) l r w T net fuel,
  static g (tc_rule anbncn) -> (forall i, e_lab W i = Z.of_nat i) ->
  (0 < l)%nat -> (0 < r)%nat -> letters w -> (3 <= l + length w + r)%nat ->
  tc_network (Z.of_nat (l + length w + r)) = Ok net -> (0 < T <= fuel)%nat ->
  exists m traj, evolve W fuel (tc_init 0 (Z.of_nat l)) net (Some (CList (tape_of l w r))) (Some (Z.of_nat T)) None g = Ok (m, traj) /\
    length (tc_history m) = T /\
    ((exists p, In (6, p) (tc_history m)) -> in_language w) /\
    ((limit w < T)%nat -> (fst (last (tc_history m) (0, 0)) = 6 <-> in_language w)).
Proof.
  intros BA BN I W g l r w T net fuel Hst Hlab Hl Hr Hw Hn Enet [HT HTf]. set (c0 := mkConf 0 (Z.of_nat l) (tape_of l w r)). set (cs := confs anbncn T c0).
  assert (Hcs : length cs = T) by apply confs_length.
  destruct (C45_tape_centric_run W anbncn (Z.of_nat (l + length w + r)) net fuel 0 (Z.of_nat l) (tape_of l w r) g cs) as (m & traj & Ev & Hh & _).
  - exact Hst.
  - lia.
  - exact Enet.
  - exact Hlab.
  - lia.
  - rewrite tape_length. reflexivity.
  - apply (confs_run anbncn T T _ _ (runs_for_ever l r w Hl Hr Hw T)). lia.
  - lia.
  - exists m, traj. rewrite <- Hcs. split; [exact Ev|]. rewrite Hh. split; [apply map_length|]. split.
    + intros (p & Hp). apply in_map_iff in Hp. destruct Hp as (c & Ec & Hc). injection Ec as Ec _. unfold cs, confs in Hc. apply in_map_iff in Hc. destruct Hc as (k & <- & _). exact (q6_sound l r w Hl Hr Hw k Ec).
    + intros HL. rewrite Hcs in HL. destruct (settled_after l r w Hl Hr Hw (T - 1) ltac:(lia)) as [_ Hq]. rewrite <- Hq.
      replace (last (map (fun c => (cf_q c, cf_p c)) cs) (0, 0)) with ((fun c => (cf_q c, cf_p c)) (after anbncn (T - 1) c0)); [reflexivity|].
      unfold cs, confs. destruct T as [|T]; [lia|]. rewrite seq_S, !map_app. cbn [map]. rewrite last_last. replace (S T - 1)%nat with T by lia. reflexivity.
Qed.
Print Assumptions C102_tape_centric.

Lemma anbncn_readable : writes_readable anbncn.
Proof.
  intros q s q' s' d Ee. unfold entry, anbncn in Ee. cbn [dget] in Ee. repeat match type of Ee with context[eqd ?a ?b] => destruct (eqd a b); cbn [dget] in Ee end; try discriminate; injection Ee; intros; subst; exact I.
Qed.
Lemma least (P : nat -> bool) n : P n = true -> exists i, (i <= n)%nat /\ P i = true /\ forall j, (j < i)%nat -> P j = false.
Proof.
  intros Hn. induction n as [n IH] using lt_wf_ind. destruct (existsb P (seq 0 n)) eqn:E.
  - apply existsb_exists in E. destruct E as (k & Hk & Pk). apply in_seq in Hk. destruct (IH k ltac:(lia) Pk) as (i & Hi & Pi & Hj). exists i. split; [lia|split; assumption].
  - exists n. split; [lia|]. split; [exact Hn|]. intros j Hj. destruct (P j) eqn:Ej; [|reflexivity]. exfalso. assert (existsb P (seq 0 n) = true) by (apply existsb_exists; exists j; split; [apply in_seq; lia|exact Ej]). congruence.
Qed.

(** turing_machine_demo1b.py: evolving the head-centric machine, with q6 as the terminating state and at most [mx] timesteps *)
Theorem C102_head_centric : forall {BA BN} (W : env Z Z (Z * Z) BA BN) (g : @args Z Z (Z * Z) head_centric Z) l r w mx net m0 ts fuel,
  static g (hc_rule anbncn (Some 6)) -> e_lab W 0 = 0 -> e_idx W 0 = Some 0 ->
  (0 < l)%nat -> (0 < r)%nat -> letters w -> (0 < mx <= fuel)%nat ->
  hc_network = Ok net -> hc_init (Some 6) (Some (Z.of_nat mx)) (tape_of l w r) (Z.of_nat l) = Ok m0 ->
  exists m traj qs, evolve W fuel m0 net (Some (hc_initial_conditions 0 (Z.of_nat l))) ts (Some (InputFun (hc_input (Some (Z.of_nat mx))))) g = Ok (m, traj) /\
    Forall2 (fun s q => exists p, activities W s = Ok (Some [(0, (q, p))])) traj qs /\
    length (hc_tapes m) = length qs /\
    (** q6 can only be the last state, and only for a word of the language *)
    (forall i, nth_error qs i = Some 6 -> S i = length qs /\ in_language w) /\
    (** a word that is not in the language takes all [mx] timesteps *)
    (~ in_language w -> length qs = mx) /\
    (** with enough timesteps a word of the language is accepted *)
    ((limit w < mx)%nat -> in_language w -> last qs 0 = 6).
Proof.
  intros BA BN W g l r w mx net m0 ts fuel Hst Hlab Hidx Hl Hr Hw [Hmx Hf] Enet Em. set (c0 := mkConf 0 (Z.of_nat l) (tape_of l w r)).
  destruct (least (fun i => stopb (Some 6) (Some (Z.of_nat mx)) i (after anbncn i c0)) (mx - 1)) as (n & Hn & Pn & Hless).
  { unfold stopb. replace (Z.of_nat (mx - 1) + 1 =? Z.of_nat mx) with true by (symmetry; apply Z.eqb_eq; lia). reflexivity. }
  set (cs := confs anbncn (S n) c0). assert (Hcs : length cs = S n) by apply confs_length.
  destruct (C44_head_centric_run W anbncn (Some 6) (Some (Z.of_nat mx)) net m0 g fuel ts 0 (Z.of_nat l) (tape_of l w r) cs) as (m & traj & Ev & Ht & Ha).
  - exact Hst.
  - exact Hlab.
  - exact Hidx.
  - apply Forall_forall. intros x Hx. unfold tape_of in Hx. apply in_app_or in Hx. destruct Hx as [Hx|Hx]; [apply repeat_spec in Hx; subst; exact I|].
    apply in_app_or in Hx. destruct Hx as [Hx|Hx]; [destruct (Hw x Hx) as [->|[->| ->]]; exact I|apply repeat_spec in Hx; subst; exact I].
  - exact anbncn_readable.
  - rewrite tape_length. lia.
  - exact Enet.
  - exact Em.
  - apply (confs_run anbncn (S n) (S n) _ _ (runs_for_ever l r w Hl Hr Hw (S n))). lia.
  - lia.
  - intros i c Ei. unfold cs in Ei. rewrite confs_nth in Ei. destruct (Nat.ltb_spec i (S n)) as [Hi|]; [|discriminate]. injection Ei as <-. rewrite Hcs, <- stopped_iff. split.
    + intros Hs. destruct (Nat.eq_dec i n) as [->|Hne]; [reflexivity|]. rewrite (Hless i) in Hs by lia. discriminate.
    + intros Hi'. injection Hi' as ->. exact Pn.
  - exists m, traj, (map cf_q cs). split; [exact Ev|]. split; [|split; [|split; [|split]]].
    + clear -Ha. induction Ha as [|s c traj cs Hs _ IH]; [constructor|]. cbn [map]. constructor; [exists (cf_p c); exact Hs|exact IH].
    + rewrite Ht, !map_length. reflexivity.
    + intros i Ei. rewrite nth_error_map in Ei. unfold cs in Ei. rewrite confs_nth in Ei. destruct (Nat.ltb_spec i (S n)) as [Hi|]; [|discriminate]. injection Ei as Ei.
      rewrite map_length, Hcs. split; [|exact (q6_sound l r w Hl Hr Hw i Ei)].
      destruct (Nat.eq_dec i n) as [->|Hne]; [reflexivity|]. exfalso. assert (Hs : stopb (Some 6) (Some (Z.of_nat mx)) i (after anbncn i c0) = true).
      { apply stopped_iff. right. split; [|fold c0 in Ei; rewrite Ei; reflexivity]. destruct i; [discriminate Ei|lia]. }
      rewrite (Hless i) in Hs by lia. discriminate.
    + intros HnL. rewrite map_length, Hcs. apply stopped_iff in Pn. destruct Pn as [En|[_ En]]; [injection En; lia|]. injection En as En. destruct (HnL (q6_sound l r w Hl Hr Hw n (eq_sym En))).
    + intros HL Hin. replace (last (map cf_q cs) 0) with (cf_q (after anbncn n c0)); [|unfold cs, confs; rewrite seq_S, !map_app; cbn [map]; rewrite last_last; reflexivity].
      apply stopped_iff in Pn. destruct Pn as [En|[_ En]]; [|injection En as En; symmetry; exact En]. injection En as En.
      destruct (settled_after l r w Hl Hr Hw n ltac:(lia)) as [_ Hq]. apply Hq. exact Hin.
Qed.
Print Assumptions C102_head_centric.

(** the comment in the demos says n > 0; the empty word is accepted too *)
Theorem C102_positive_refuted : exists w, letters w /\ w = [] /\
  exists k, cf_q (after anbncn k (mkConf 0 2 (tape_of 2 w 2))) = 6.
Proof. exists []. split; [intros x []|]. split; [reflexivity|]. exists 1%nat. vm_compute. reflexivity. Qed.
Print Assumptions C102_positive_refuted.

(** ** Examples *)
Definition aabbcc : list sym := [cell_a; cell_a; cell_b; cell_b; cell_c; cell_c].
Example C102_member : in_language aabbcc /\ letters aabbcc.
Proof. split; [exists 2%nat; reflexivity|]. intros x Hx. cbn in Hx. destruct Hx as [<-|[<-|[<-|[<-|[<-|[<-|[]]]]]]]; auto. Qed.
Example C102_nonmember : ~ in_language [cell_a; cell_b; cell_b; cell_c].
Proof. intros (n & E). apply (f_equal (@length sym)) in E. rewrite !app_length, !repeat_length in E. cbn in E. lia. Qed.
(** the demo's own run stops of itself before its 50 timesteps are over *)
Example C102_demo1b : exists m traj net m0, hc_network = Ok net /\ hc_init (Some 6) (Some 50) (tape_of 2 aabbcc 2) 2 = Ok m0 /\
  evolve Wh 60 m0 net (Some (hc_initial_conditions 0 2)) None (Some (InputFun (hc_input (Some 50)))) (gh anbncn (Some 6)) = Ok (m, traj) /\
  length traj = length (hc_tapes m) /\ (length traj < 50)%nat /\ last (hc_tapes m) [] = map SInt [0; 0; 4; 4; 5; 5; 6; 6; 0; 0].
Proof. do 4 eexists. split; [vm_compute; reflexivity|]. split; [reflexivity|]. split; [vm_compute; reflexivity|]. vm_compute. split; [reflexivity|]. split; [repeat constructor|reflexivity]. Qed.
Example C102_head_centric_nonvacuous : static (gh anbncn (Some 6)) (hc_rule anbncn (Some 6)) /\ (exists net, hc_network = Ok net) /\
  (exists m0, hc_init (Some 6) (Some (Z.of_nat 50)) (tape_of 2 aabbcc 2) (Z.of_nat 2) = Ok m0).
Proof. split; [unfold static; splits; reflexivity|]. split; [eexists; vm_compute; reflexivity|eexists; reflexivity]. Qed.
Example C102_tape_centric_nonvacuous : static (gt anbncn) (tc_rule anbncn) /\ (exists net, tc_network (Z.of_nat (2 + length aabbcc + 2)) = Ok net).
Proof. split; [unfold static; splits; reflexivity|]. eexists; vm_compute; reflexivity. Qed.
