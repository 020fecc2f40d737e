(** Property theorems for the rule 110 machine of turing_machine_demo1c.py and turing_machine_demo2c.py (C103). *)
From Verif Require Import Py PyFacts ListFacts Network Topology Evolve EvolveSpec EvolveStatic PropEvolve Utils RulesProofs.
From Verif Require Import TuringSpec Turing TuringProofs TuringProofs2 PropTuring TmDemos TmZipper TmRule110.
Open Scope string_scope.
Open Scope list_scope.
Open Scope Z_scope.

(** ** C103. The machine computes the rows of rule 110 *)

(** [l] cells b, the row [w] written with a and e, [r] cells a; the head, in the state up, is on the first of these *)
Definition start110 (l r : nat) (w : list bool) : conf Z sym :=
  mkConf 1 (Z.of_nat (l + length w)) (repeat (SInt 1) l ++ map cellof w ++ repeat (SInt 0) r).
(** the tape with row [n] of rule 110 on it, one cell longer on either side per row *)
Definition tape110 (l r : nat) (w : list bool) (n : nat) : list sym :=
  repeat (SInt 1) (l - n) ++
  map (fun x => cellof (world (placed (Z.of_nat l) w) n x)) (zrange (Z.of_nat l - Z.of_nat n) (Z.of_nat (l + length w + n))) ++
  repeat (SInt 0) (r - n).

Lemma start_return l r w : start110 l r w = at_return l r w 0.
Proof. unfold start110, at_return. rewrite Nat.add_0_r, !Nat.sub_0_r. reflexivity. Qed.
Lemma at_return_world l r w n : hd false w = false -> at_return l r w n = mkConf 1 (Z.of_nat (l + length w + n)) (tape110 l r w n).
Proof.
  intros Hw. unfold at_return, tape110. do 3 f_equal. rewrite (placed_list (Z.of_nat l - Z.of_nat n) (rows w n)) at 1. rewrite map_map, rows_length.
  replace (Z.of_nat l - Z.of_nat n + Z.of_nat (length w + 2 * n)) with (Z.of_nat (l + length w + n)) by lia.
  apply map_ext. intros x. rewrite rows_world by exact Hw. reflexivity.
Qed.
Lemma run_after c cs : run_from nks25 c cs -> forall j a, nth_error cs j = Some a -> reach nks25 j c a.
Proof.
  intros [E0 En]. intros j. induction j as [|j IH]; intros a Ea; [rewrite E0 in Ea; injection Ea as <-; constructor|].
  destruct (nth_error cs j) as [b|] eqn:Eb; [|apply nth_error_None in Eb; apply nth_error_Some_lt in Ea || (assert (nth_error cs (S j) <> None) as Hn by congruence; apply nth_error_Some in Hn; lia)].
  replace (S j) with (j + 1)%nat by lia. eapply reach_trans; [apply IH; reflexivity|]. apply reach_one. apply (En j); [exact Eb|]. rewrite Nat.add_1_r. exact Ea.
Qed.

(** Any run of the bare machine: at step [return_time w n] the tape shows row [n] of rule 110 and the head is in the state up on the cell after it; before the next such step the head does not get any further to the right. *)
Theorem C103_machine : forall l r w cs, hd false w = false -> run_from nks25 (start110 l r w) cs ->
  forall n, (n <= l)%nat -> (n < r)%nat ->
    (forall c, nth_error cs (return_time w n) = Some c -> c = mkConf 1 (Z.of_nat (l + length w + n)) (tape110 l r w n)) /\
    (forall j c, (n < l)%nat -> (n + 1 < r)%nat -> (return_time w n <= j < return_time w (n + 1))%nat -> nth_error cs j = Some c -> cf_p c <= Z.of_nat (l + length w + n)).
Proof.
  intros l r w cs Hw Hrun n Hl Hr. rewrite start_return in Hrun. split.
  - intros c Ec. rewrite <- at_return_world by exact Hw. apply (reach_det nks25 _ _ _ _ (run_after _ _ Hrun _ _ Ec)). apply returns; assumption.
  - intros j c Hl' Hr' Hj Ec. rewrite <- (reach_after nks25 _ _ _ (run_after _ _ Hrun _ _ Ec)). apply between; [exact Hw|exact Hl'|exact Hr'|]. replace (S n) with (n + 1)%nat by lia. exact Hj.
Qed.
Print Assumptions C103_machine.

(** *** The loop that keeps the rows *)

Definition mark_row (N : Z) (p : Z) (s : string) : list (option string) := map (fun j => if j =? p then Some s else None) (zrange 0 N).

Lemma index_row s x p : forall k a N, N = a + Z.of_nat k -> a <= p < N ->
  list_index (map (fun j => if j =? p then Some s else None) (zrange a N)) (Some x) = if eqb s x then Ok (p - a) else Err ValueError.
Proof.
  assert (Hnone : forall k a N, N = a + Z.of_nat k -> p < a -> list_index (map (fun j => if j =? p then Some s else None) (zrange a N)) (Some x) = Err ValueError).
  { induction k as [|k IH]; intros a N EN Ha; [rewrite zrange_nil by lia; reflexivity|]. rewrite zrange_cons by lia. cbn [map list_index].
    replace (a =? p) with false by (symmetry; apply Z.eqb_neq; lia). change (eqb None (Some x)) with false. cbv iota. rewrite (IH (a + 1) N) by lia. reflexivity. }
  induction k as [|k IH]; intros a N EN Ha; [lia|]. rewrite zrange_cons by lia. cbn [map list_index]. destruct (Z.eqb_spec a p) as [->|Hne].
  - destruct (eqb s x) eqn:Es.
    + pose proof (proj1 (eqb_true _ _) Es) as Ex. clear Es. subst x. rewrite eqb_refl. rewrite Z.sub_diag. reflexivity.
    + replace (eqb (Some s) (Some x)) with false; [|symmetry; apply eqb_false; pose proof (proj1 (eqb_false _ _) Es); congruence]. rewrite (Hnone k (p + 1) N) by lia. reflexivity.
  - change (eqb None (Some x)) with false. cbv iota. rewrite (IH (a + 1) N) by lia. destruct (eqb s x); [|reflexivity]. cbn. f_equal. lia.
Qed.

(** the configurations are those of a machine with states 1 and 2 and positions on the tape; the rows kept are those of the returns *)
Section Keep.
  Context {A : Type} (N : Z) (pos : nat -> Z) (st : nat -> string) (hist : nat -> A) (time : nat -> nat) (base : Z).
  Context (Hst : forall j, st j = "1" \/ st j = "2") (Hbase : 0 < base) (T0 : time 0%nat = 0%nat).

  Lemma kept T : forall n Nn, (forall k, (k <= n)%nat -> (time k < time (S k))%nat) -> (time n < T <= time (S n))%nat ->
    (forall j, (j < T)%nat -> 0 <= pos j < N) ->
    (forall k, (k <= n)%nat -> pos (time k) = base + Z.of_nat k) ->
    (forall k j, (k <= n)%nat -> (j < T)%nat -> (time k <= j < time (S k))%nat -> pos j <= base + Z.of_nat k) ->
    (T <= Nn)%nat ->
    rfold (fun st0 '(i, row) =>
      let '(acts, heads, furthest) := st0 in
      head_idx <- match list_index row (Some "1") with Err ValueError => list_index row (Some "2") | r => r end ;;
      if furthest <? head_idx then a <- of_opt IndexError (nth_error (map hist (seq 0 Nn)) i) ;; Ok (acts ++ [a], heads ++ [row], head_idx) else Ok st0)
      (enumerate (map (fun j => mark_row N (pos j) (st j)) (seq 0 T))) ([], [], 0)
    = Ok (map (fun k => hist (time k)) (seq 0 (S n)), map (fun k => mark_row N (pos (time k)) (st (time k))) (seq 0 (S n)), base + Z.of_nat n).
  Proof.
    induction T as [|T IH]; intros n Nn Hmono HT Hpos Hret Hbet HN; [lia|].
    rewrite (seq_S T 0), map_app. cbn [map plus]. rewrite enumerate_snoc, rfold_app, map_length, seq_length.
    assert (Hidx : match list_index (mark_row N (pos T) (st T)) (Some "1") with Err ValueError => list_index (mark_row N (pos T) (st T)) (Some "2") | r => r end = Ok (pos T)).
    { pose proof (Hpos T ltac:(lia)) as HpT. unfold mark_row. rewrite !(index_row (st T) _ (pos T) (Z.to_nat N) 0 N) by lia. rewrite Z.sub_0_r. destruct (Hst T) as [->| ->]; reflexivity. }
    assert (Hat : nth_error (map hist (seq 0 Nn)) T = Some (hist T)).
    { rewrite nth_error_map. rewrite (nth_error_nth' _ 0%nat) by (rewrite seq_length; lia). rewrite seq_nth by lia. reflexivity. }
    assert (Hm : forall k, (k <= n)%nat -> (time k <= time n)%nat) by (intros k Hk; clear -Hmono Hk; induction n as [|n IHn]; [replace k with 0%nat by lia; lia|]; destruct (Nat.eq_dec k (S n)) as [->|Hne]; [lia|]; specialize (IHn ltac:(intros; apply Hmono; lia) ltac:(lia)); specialize (Hmono n ltac:(lia)); lia).
    destruct (Nat.eq_dec T (time n)) as [ET|ET].
    - (* a return *)
      destruct n as [|n].
      + rewrite T0 in ET. subst T. cbn [seq map enumerate combine length rfold]. change (rfold _ (enumerate []) ([], [], 0)) with (@Ok (list A * list (list (option string)) * Z) ([], [], 0)). cbn [rbind rfold]. rewrite Hidx. cbn [rbind].
        pose proof (Hret 0%nat ltac:(lia)) as H0. rewrite T0 in H0. replace (0 <? pos 0%nat) with true by (symmetry; apply Z.ltb_lt; lia). rewrite Hat. cbn. rewrite T0, H0. reflexivity.
      + rewrite (IH n Nn); [|intros; apply Hmono; lia|split; [specialize (Hmono n ltac:(lia)); lia|lia]|intros; apply Hpos; lia|intros; apply Hret; lia|intros; apply Hbet; lia|lia].
        cbn [rbind rfold]. rewrite Hidx. cbn [rbind]. pose proof (Hret (S n) ltac:(lia)) as HS. rewrite <- ET in HS.
        replace (base + Z.of_nat n <? pos T) with true by (symmetry; apply Z.ltb_lt; lia). rewrite Hat.
        rewrite (seq_S (S n) 0), !map_app. cbn [map plus]. rewrite <- ET, HS. reflexivity.
    - rewrite (IH n Nn); [|exact Hmono|lia|intros; apply Hpos; lia|exact Hret|intros; apply Hbet; lia|lia].
      cbn [rbind rfold]. rewrite Hidx. cbn [rbind]. pose proof (Hbet n T ltac:(lia) ltac:(lia) ltac:(lia)) as HB.
      replace (base + Z.of_nat n <? pos T) with false by (symmetry; apply Z.ltb_ge; lia). reflexivity.
  Qed.
End Keep.

Definition str12 (q : Z) : string := if q =? 1 then "1" else "2".
Lemma q12 c c' : (cf_q c = 1 \/ cf_q c = 2) -> next nks25 c = Some c' -> cf_q c' = 1 \/ cf_q c' = 2.
Proof.
  intros _ E. unfold next in E. destruct (nth_error _ _) as [s|]; [|discriminate]. destruct (entry nks25 (cf_q c) s) as [[[q' s'] d]|] eqn:Ee; [|discriminate]. destruct (move d); [|discriminate]. injection E as <-. cbn [cf_q].
  unfold entry, nks25 in Ee. cbn [dget] in Ee. repeat match type of Ee with context[eqd ?a ?b] => destruct (eqd a b); cbn [dget] in Ee end; try discriminate; injection Ee; intros; subst; auto.
Qed.
Lemma stays_good k c c' : reach nks25 k c c' -> good c -> (cf_q c = 1 \/ cf_q c = 2) -> good c' /\ length (cf_tape c') = length (cf_tape c) /\ (cf_q c' = 1 \/ cf_q c' = 2).
Proof.
  induction 1 as [c|k c c1 c2 E _ IH]; intros Hg Hq; [auto|]. destruct (next_good nks25 c c1 Hg E) as [Hg1 Hl1]. destruct (IH Hg1 (q12 _ _ Hq E)) as (Hg2 & Hl2 & Hq2). split; [exact Hg2|]. split; [congruence|exact Hq2].
Qed.

(** the rows kept: the tapes of the returns and the rows with the mark of the head in the state up *)
Definition kept_tapes (l r : nat) (w : list bool) (n : nat) : list (list sym) := map (tape110 l r w) (seq 0 (S n)).
Definition kept_heads (l r : nat) (w : list bool) (n : nat) : list (list (option string)) :=
  map (fun k => mark_row (Z.of_nat (l + length w + r)) (Z.of_nat (l + length w + k)) "1") (seq 0 (S n)).

Lemma start_good l r w : (0 < r)%nat -> good (start110 l r w) /\ length (cf_tape (start110 l r w)) = (l + length w + r)%nat /\ (cf_q (start110 l r w) = 1 \/ cf_q (start110 l r w) = 2).
Proof.
  intros Hr. assert (El : length (cf_tape (start110 l r w)) = (l + length w + r)%nat) by (unfold start110; cbn [cf_tape]; rewrite !app_length, map_length, !repeat_length; lia).
  split; [unfold good; rewrite El; unfold start110; cbn [cf_p]; lia|]. split; [exact El|]. left. reflexivity.
Qed.

Lemma compress_run l r w n T : hd false w = false -> (0 < l + length w)%nat -> (n < l)%nat -> (n + 1 < r)%nat -> (return_time w n < T <= return_time w (n + 1))%nat ->
  let cs := confs nks25 T (start110 l r w) in
  run_from nks25 (start110 l r w) cs /\ (forall c, In c cs -> length (cf_tape c) = (l + length w + r)%nat /\ 0 <= cf_p c < Z.of_nat (l + length w + r)) /\
  compress (map (@cf_tape Z sym) cs) (map (fun c => map (fun j => if j =? cf_p c then Some (str12 (cf_q c)) else None) (zrange 0 (Z.of_nat (l + length w + r)))) cs)
  = Ok (kept_tapes l r w n, kept_heads l r w n).
Proof.
  intros Hw Hpos Hl Hr HT cs. set (c0 := start110 l r w). destruct (start_good l r w ltac:(lia)) as (Hg0 & Hlen0 & Hq0). fold c0 in Hg0, Hlen0, Hq0.
  replace (n + 1)%nat with (S n) in HT by lia.
  assert (HR : reach nks25 (return_time w (S n)) c0 (at_return l r w (S n))) by (unfold c0; rewrite start_return; apply returns; [exact Hw|lia|lia]).
  assert (Hall : forall j, (j < T)%nat -> good (after nks25 j c0) /\ length (cf_tape (after nks25 j c0)) = (l + length w + r)%nat /\ (cf_q (after nks25 j c0) = 1 \/ cf_q (after nks25 j c0) = 2)).
  { intros j Hj. destruct (stays_good j c0 (after nks25 j c0)) as (H1 & H2 & H3); [apply (reach_upto nks25 j (return_time w (S n)) c0 _ ltac:(lia) HR)|exact Hg0|exact Hq0|]. rewrite Hlen0 in H2. auto. }
  split; [|split].
  - apply (confs_run nks25 T (return_time w (S n)) _ _ HR). lia.
  - intros c Hc. unfold cs, confs in Hc. apply in_map_iff in Hc. destruct Hc as (j & <- & Hj). apply in_seq in Hj. destruct (Hall j ltac:(lia)) as (H1 & H2 & _). split; [exact H2|]. unfold good in H1. rewrite H2 in H1. exact H1.
  - assert (Hret : forall k, (k <= n)%nat -> after nks25 (return_time w k) c0 = mkConf 1 (Z.of_nat (l + length w + k)) (tape110 l r w k)).
    { intros k Hk. rewrite <- at_return_world by exact Hw. apply reach_after. unfold c0. rewrite start_return. apply returns; [exact Hw|lia|lia]. }
    unfold compress, cs, confs. rewrite !map_map.
    pose proof (kept (Z.of_nat (l + length w + r)) (fun j => cf_p (after nks25 j c0)) (fun j => str12 (cf_q (after nks25 j c0))) (fun j => cf_tape (after nks25 j c0)) (return_time w) (Z.of_nat (l + length w))) as K.
    specialize (K ltac:(intros j; unfold str12; destruct (_ =? 1); auto) ltac:(lia) ltac:(unfold return_time; lia) T n T).
    unfold mark_row in K. fold c0. rewrite K.
    + cbn [rbind]. unfold kept_tapes, kept_heads, mark_row.
      assert (E1 : map (fun k => cf_tape (after nks25 (return_time w k) c0)) (seq 0 (S n)) = map (tape110 l r w) (seq 0 (S n))) by (apply map_ext_in; intros k Hk; apply in_seq in Hk; rewrite Hret by lia; reflexivity).
      rewrite E1. f_equal. f_equal. apply map_ext_in. intros k Hk. apply in_seq in Hk. rewrite Hret by lia. reflexivity.
    + intros k Hk. rewrite return_time_S. lia.
    + exact HT.
    + intros j Hj. destruct (Hall j Hj) as (H1 & H2 & _). unfold good in H1. rewrite H2 in H1. exact H1.
    + intros k Hk. rewrite Hret by exact Hk. cbn [cf_p]. lia.
    + intros k j Hk Hj Hkj. replace (Z.of_nat (l + length w) + Z.of_nat k) with (Z.of_nat (l + length w + k)) by lia. unfold c0. rewrite start_return. apply between; [exact Hw|lia|lia|exact Hkj].
    + lia.
Qed.

(** turing_machine_demo2c.py:34-73 *)
Theorem C103_tape_centric : forall {BA BN I} (W : env Z Z sym BA BN) (g : @args Z Z sym (tape_centric Z) I) l r w n T net fuel,
  static g (tc_rule nks25) -> (forall i, e_lab W i = Z.of_nat i) ->
  hd false w = false -> (n < l)%nat -> (n + 1 < r)%nat -> (return_time w n < T <= return_time w (n + 1))%nat -> (T <= fuel)%nat ->
  tc_network (Z.of_nat (l + length w + r)) = Ok net ->
  exists m traj heads acts,
    evolve W fuel (tc_init 1 (Z.of_nat (l + length w))) net (Some (CList (cf_tape (start110 l r w)))) (Some (Z.of_nat T)) None g = Ok (m, traj) /\
    tc_head_activities W str12 (Z.of_nat (l + length w + r)) m traj = Ok heads /\
    get_activities_over_time_as_list W Z.leb traj = Ok acts /\
    length acts = T /\ length heads = T /\
    compress acts heads = Ok (kept_tapes l r w n, kept_heads l r w n).
Proof.
  intros BA BN I W g l r w n T net fuel Hst Hlab Hw Hl Hr HT Hf Enet. set (N := Z.of_nat (l + length w + r)).
  destruct (compress_run l r w n T Hw ltac:(lia) Hl Hr HT) as (Hrun & Hin & Hcomp). set (cs := confs nks25 T (start110 l r w)) in *.
  assert (Hcs : length cs = T) by apply confs_length. destruct (start_good l r w ltac:(lia)) as (_ & Hlen & _).
  destruct (C45_tape_centric_run W nks25 N net fuel 1 (Z.of_nat (l + length w)) (cf_tape (start110 l r w)) g cs) as (m & traj & Ev & _ & Ha & _ & Hh).
  - exact Hst.
  - unfold N. lia.
  - exact Enet.
  - exact Hlab.
  - unfold N. lia.
  - rewrite Hlen. reflexivity.
  - exact Hrun.
  - lia.
  - exists m, traj. do 2 eexists. rewrite <- Hcs at 1. split; [exact Ev|]. split; [apply Hh|]. split; [exact Ha|]. rewrite !map_length. split; [exact Hcs|]. split; [exact Hcs|]. exact Hcomp.
Qed.
Print Assumptions C103_tape_centric.

Lemma nks25_readable : writes_readable nks25.
Proof.
  intros q s q' s' d Ee. unfold entry, nks25 in Ee. cbn [dget] in Ee. repeat match type of Ee with context[eqd ?a ?b] => destruct (eqd a b); cbn [dget] in Ee end; try discriminate; injection Ee; intros; subst; exact I.
Qed.

(** turing_machine_demo1c.py:34-69 *)
Theorem C103_head_centric : forall {BA BN} (W : env Z Z (Z * Z) BA BN) (g : @args Z Z (Z * Z) head_centric Z) l r w n T net m0 ts fuel,
  static g (hc_rule nks25 None) -> e_lab W 0 = 0 -> e_idx W 0 = Some 0 ->
  hd false w = false -> (n < l)%nat -> (n + 1 < r)%nat -> (return_time w n < T <= return_time w (n + 1))%nat -> (T <= fuel)%nat ->
  hc_network = Ok net -> hc_init (Q := Z) None (Some (Z.of_nat T)) (cf_tape (start110 l r w)) (Z.of_nat (l + length w)) = Ok m0 ->
  exists m traj tapes heads,
    evolve W fuel m0 net (Some (hc_initial_conditions 1 (Z.of_nat (l + length w)))) ts (Some (InputFun (hc_input (Some (Z.of_nat T))))) g = Ok (m, traj) /\
    hc_activities_for_plotting W str12 m traj = Ok (tapes, heads) /\
    length tapes = T /\ length heads = T /\
    compress tapes heads = Ok (kept_tapes l r w n, kept_heads l r w n).
Proof.
  intros BA BN W g l r w n T net m0 ts fuel Hst Hlab Hidx Hw Hl Hr HT Hf Enet Em.
  destruct (compress_run l r w n T Hw ltac:(lia) Hl Hr HT) as (Hrun & Hin & Hcomp). set (cs := confs nks25 T (start110 l r w)) in *.
  assert (Hcs : length cs = T) by apply confs_length. destruct (start_good l r w ltac:(lia)) as (Hg & Hlen & _).
  destruct (C44_head_centric_run W nks25 None (Some (Z.of_nat T)) net m0 g fuel ts 1 (Z.of_nat (l + length w)) (cf_tape (start110 l r w)) cs) as (m & traj & Ev & Ht & Ha).
  - exact Hst.
  - exact Hlab.
  - exact Hidx.
  - apply Forall_forall. intros x Hx. unfold start110 in Hx. cbn [cf_tape] in Hx. apply in_app_or in Hx. destruct Hx as [Hx|Hx]; [apply repeat_spec in Hx; rewrite Hx; exact I|].
    apply in_app_or in Hx. destruct Hx as [Hx|Hx]; [apply in_map_iff in Hx; destruct Hx as ([] & <- & _); exact I|apply repeat_spec in Hx; rewrite Hx; exact I].
  - exact nks25_readable.
  - rewrite Hlen. lia.
  - exact Enet.
  - exact Em.
  - exact Hrun.
  - lia.
  - intros i c Ei. rewrite Hcs. assert (Hi : (i < T)%nat) by (rewrite <- Hcs; apply nth_error_Some; congruence). unfold stopped. split; [intros [E|[_ E]]; [injection E; lia|discriminate]|]. intros Hi'. left. f_equal. lia.
  - exists m, traj. do 2 eexists. split; [exact Ev|]. split; [apply (C44_plotting W str12 cs m traj (l + length w + r)); [intros Hn; rewrite Hn in Hcs; cbn in Hcs; lia|exact Ht|exact Ha|exact Hin]|].
    rewrite !map_length. split; [exact Hcs|]. split; [exact Hcs|]. exact Hcomp.
Qed.
Print Assumptions C103_head_centric.

(** ** Examples *)

(** the demos' longer run: 50 cells b, the row ae, 51 cells a, 5000 timesteps; rows 0 to 48 are kept *)
Example C103_demo_nonvacuous : hd false [false; true] = false /\ (48 < 50)%nat /\ (48 + 1 < 51)%nat /\
  (return_time [false; true] 48 < 5000 <= return_time [false; true] (48 + 1))%nat /\ start110 50 51 [false; true] = mkConf 1 52 (repeat (SInt 1) 50 ++ [SInt 0; SInt 4] ++ repeat (SInt 0) 51).
Proof. unfold return_time. cbn [length]. repeat split; lia. Qed.
Example C103_static : static (gt nks25) (tc_rule nks25) /\ static (gh nks25 None) (hc_rule nks25 None) /\ (exists net, tc_network (Z.of_nat (6 + 2 + 7)) = Ok net) /\ (exists net, hc_network = Ok net).
Proof. split; [unfold static; splits; reflexivity|]. split; [unfold static; splits; reflexivity|]. split; eexists; vm_compute; reflexivity. Qed.
(** the first rows from a single black cell, on the short tape of the demos *)
Example C103_rows : kept_tapes 6 7 [false; true] 3 =
  map (map SInt) [[1;1;1;1;1;1;0;4;0;0;0;0;0;0;0]; [1;1;1;1;1;0;4;4;0;0;0;0;0;0;0]; [1;1;1;1;0;4;4;4;0;0;0;0;0;0;0]; [1;1;1;0;4;4;0;4;0;0;0;0;0;0;0]].
Proof. vm_compute. reflexivity. Qed.
(** the row must begin with a white cell: with a black one the cell to its left is lost *)
Theorem C103_black_start_refuted : exists w, hd false w = true /\
  cf_tape (after nks25 (return_time w 1) (start110 3 4 w)) <> tape110 3 4 w 1.
Proof. exists [true]. split; [reflexivity|]. vm_compute. discriminate. Qed.
Print Assumptions C103_black_start_refuted.
