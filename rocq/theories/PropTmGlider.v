(** Property theorems for the two-state machine of turing_machine_demo1.py and turing_machine_demo2.py (C117). *)
From Coq Require Import Lia.
From Verif Require Import Py PyFacts ListFacts Network Topology Evolve EvolveSpec EvolveStatic PropEvolve Utils.
From Verif Require Import TuringSpec Turing TuringProofs TuringProofs2 PropTuring TmDemos.
Open Scope string_scope.
Open Scope list_scope.
Open Scope Z_scope.

(** ** C117. The machine repeats eight steps, two cells further to the right each time *)

(** within eight steps: the state, and how far from the centre the head and the cells that are on are *)
Definition phase (j : nat) : Z * Z * list Z :=
  match j with
  | 0%nat => (1, 0, [])
  | 1%nat => (2, 1, [0])
  | 2%nat => (2, 0, [0; 1])
  | 3%nat => (1, -1, [0; 1])
  | 4%nat => (2, 0, [-1; 0; 1])
  | 5%nat => (1, -1, [-1; 0; 1])
  | 6%nat => (1, 0, [0; 1])
  | _ => (1, 1, [1])
  end.
(** the tape of [n] cells on which exactly the cells at the distances [on] from [c] are on *)
Definition lit (n c : Z) (on : list Z) : list sym := map (fun x => SInt (if existsb (fun o => (c + o) mod n =? x) on then 1 else 0)) (zrange 0 n).
Definition glider (n p : Z) (t : nat) : conf Z sym :=
  let c := p + 2 * Z.of_nat (t / 8) in
  let '(q, o, on) := phase (t mod 8) in
  mkConf q ((c + o) mod n) (lit n c on).

Lemma length_lit n c on : 0 <= n -> Z.of_nat (length (lit n c on)) = n.
Proof. intros Hn. unfold lit. rewrite map_length, length_zrange. lia. Qed.
Lemma nth_cells {B} (f : Z -> B) n x : 0 <= x < n -> nth_error (map f (zrange 0 n)) (Z.to_nat x) = Some (f x).
Proof.
  intros Hx. erewrite map_nth_error; [reflexivity|]. rewrite (zrange_split 0 x n) by lia. rewrite nth_error_app2 by (rewrite length_zrange; lia). rewrite length_zrange. replace (Z.to_nat x - Z.to_nat (x - 0))%nat with 0%nat by lia. rewrite zrange_cons by lia. reflexivity.
Qed.
Lemma write_cells {B} (f : Z -> B) n x b : 0 <= x < n ->
  firstn (Z.to_nat x) (map f (zrange 0 n)) ++ b :: skipn (Z.to_nat x + 1) (map f (zrange 0 n)) = map (fun y => if y =? x then b else f y) (zrange 0 n).
Proof.
  intros Hx. rewrite (zrange_split 0 x n) by lia. rewrite (zrange_cons x n) by lia. rewrite !map_app. cbn [map].
  assert (Hl : length (map f (zrange 0 x)) = Z.to_nat x) by (rewrite map_length, length_zrange; lia).
  rewrite firstn_app, Hl, Nat.sub_diag. cbn [firstn]. rewrite app_nil_r, <- Hl, firstn_all. rewrite Nat.add_1_r. rewrite skipn_app, skipn_all2 by lia. replace (S (length (map f (zrange 0 x))) - length (map f (zrange 0 x)))%nat with 1%nat by lia. cbn [skipn app]. rewrite Z.eqb_refl. f_equal; [|f_equal].
  - apply map_ext_in. intros y Hy. apply in_zrange in Hy. destruct (Z.eqb_spec y x); [lia|reflexivity].
  - apply map_ext_in. intros y Hy. apply in_zrange in Hy. destruct (Z.eqb_spec y x); [lia|reflexivity].
Qed.

Lemma apart n c a b : 0 < n -> (c + a) mod n = (c + b) mod n -> -n < a - b < n -> a = b.
Proof.
  intros Hn E Hab. pose proof (Z.div_mod (c + a) n ltac:(lia)) as Ea. pose proof (Z.div_mod (c + b) n ltac:(lia)) as Eb. rewrite E in Ea. assert (Ed : a - b = n * ((c + a) / n - (c + b) / n)) by lia.
  destruct (Z.eq_dec ((c + a) / n - (c + b) / n) 0) as [E0|E0]; [rewrite E0 in Ed; lia|]. assert (n <= Z.abs (a - b)) by (rewrite Ed, Z.abs_mul; nia). lia.
Qed.

Section Step.
  Context (n c : Z) (Hn : 3 <= n).
  (** reading and writing one of the three cells around the centre *)
  Lemma step_lit q o on q' s s' m d on' c' o' : entry nks22 q (SInt s) = Some (q', SInt s', d) -> move d = Some m ->
    (if existsb (fun a => (c + a) mod n =? (c + o) mod n) on then 1 else 0) = s ->
    (c + o + m) = c' + o' ->
    (forall x, 0 <= x < n -> (if x =? (c + o) mod n then s' else if existsb (fun a => (c + a) mod n =? x) on then 1 else 0) = (if existsb (fun a => (c' + a) mod n =? x) on' then 1 else 0)) ->
    next nks22 (mkConf q ((c + o) mod n) (lit n c on)) = Some (mkConf q' ((c' + o') mod n) (lit n c' on')).
  Proof.
    intros Ee Em Es Ep Ht. unfold next. cbn [cf_tape cf_p cf_q]. assert (Hb : 0 <= (c + o) mod n < n) by (apply Z.mod_pos_bound; lia). unfold lit at 1. rewrite nth_cells by assumption. rewrite Es, Ee, Em. rewrite length_lit by lia. f_equal. f_equal.
    - rewrite Zplus_mod_idemp_l. f_equal. assumption.
    - unfold lit. rewrite write_cells by assumption. apply map_ext_in. intros x Hx. apply in_zrange in Hx. rewrite <- Ht by lia. destruct (x =? (c + o) mod n); reflexivity.
  Qed.
  Lemma d01 : (c + -1) mod n <> (c + 0) mod n. Proof. intros E. apply apart in E; lia. Qed.
  Lemma d02 : (c + -1) mod n <> (c + 1) mod n. Proof. intros E. apply apart in E; lia. Qed.
  Lemma d12 : (c + 0) mod n <> (c + 1) mod n. Proof. intros E. apply apart in E; lia. Qed.
End Step.

Lemma glider_step n p t : 3 <= n -> next nks22 (glider n p t) = Some (glider n p (S t)).
Proof.
  intros Hn. unfold glider. pose proof (Nat.div_mod t 8 ltac:(lia)) as Et. assert (Hm : (t mod 8 < 8)%nat) by (apply Nat.mod_upper_bound; lia). set (k := (t / 8)%nat) in *. set (j := (t mod 8)%nat) in *.
  assert (E : (j < 7 /\ S t / 8 = k /\ S t mod 8 = S j \/ j = 7 /\ S t / 8 = S k /\ S t mod 8 = 0)%nat).
  { destruct (Nat.eq_dec j 7) as [E7|E7]; [right|left].
    - split; [assumption|]. split; [symmetry; apply (Nat.div_unique _ _ _ 0); lia|symmetry; apply (Nat.mod_unique _ _ (S k)); lia].
    - split; [lia|]. split; [symmetry; apply (Nat.div_unique _ _ _ (S j)); lia|symmetry; apply (Nat.mod_unique _ _ k); lia]. }
  cbv zeta. pose proof (d01 n (p + 2 * Z.of_nat k) Hn) as N1. pose proof (d02 n (p + 2 * Z.of_nat k) Hn) as N2. pose proof (d12 n (p + 2 * Z.of_nat k) Hn) as N3.
  clearbody j k. destruct E as [(Hj & -> & -> )|( -> & -> & -> )].
  - destruct j as [|[|[|[|[|[|[|j]]]]]]]; try lia; cbn [phase]; (first [eapply (step_lit _ _ Hn _ _ _ _ 0); [reflexivity|reflexivity| |unfold LEFT, RIGHT; lia|]|eapply (step_lit _ _ Hn _ _ _ _ 1); [reflexivity|reflexivity| |unfold LEFT, RIGHT; lia|]]); cbn [existsb];
      try (intros x Hx; cbn [existsb]); repeat match goal with |- context[?a =? ?b] => destruct (Z.eqb_spec a b) end; cbn [orb]; try reflexivity; congruence.
  - cbn [phase]. eapply (step_lit _ _ Hn _ _ _ _ 1); [reflexivity|reflexivity| |unfold LEFT, RIGHT; lia|]; cbn [existsb]; try (intros x Hx; cbn [existsb]); repeat match goal with |- context[?a =? ?b] => destruct (Z.eqb_spec a b) end; cbn [orb]; try reflexivity; congruence.
Qed.

Definition gliders (n p : Z) (T : nat) : list (conf Z sym) := map (glider n p) (seq 0 T).
Lemma gliders_nth n p T t : (t < T)%nat -> nth_error (gliders n p T) t = Some (glider n p t).
Proof. intros Ht. unfold gliders. erewrite map_nth_error; [reflexivity|]. rewrite (nth_error_nth' _ 0%nat) by (rewrite seq_length; assumption). rewrite seq_nth by assumption. reflexivity. Qed.
Lemma gliders_length n p T : length (gliders n p T) = T.
Proof. unfold gliders. rewrite map_length, seq_length. reflexivity. Qed.
Lemma lit_dark n c : 0 <= n -> lit n c [] = repeat (SInt 0) (Z.to_nat n).
Proof.
  intros Hn. unfold lit. cbn [existsb]. assert (Hl : length (zrange 0 n) = Z.to_nat n) by (rewrite length_zrange; lia). rewrite <- Hl. generalize (zrange 0 n). intros l. induction l as [|x l IH]; [reflexivity|]. cbn [map length repeat]. f_equal. exact IH.
Qed.
Lemma glider_start n p : 0 <= p < n -> glider n p 0 = mkConf 1 p (repeat (SInt 0) (Z.to_nat n)).
Proof. intros Hp. unfold glider. change (0 / 8)%nat with 0%nat. change (0 mod 8)%nat with 0%nat. cbn [phase]. rewrite lit_dark by lia. f_equal. replace (p + 2 * Z.of_nat 0 + 0) with p by lia. apply Z.mod_small. assumption. Qed.
Lemma gliders_run n p T : 3 <= n -> 0 <= p < n -> (1 <= T)%nat -> run_from nks22 (mkConf 1 p (repeat (SInt 0) (Z.to_nat n))) (gliders n p T).
Proof.
  intros Hn Hp HT. split; [rewrite gliders_nth by lia; rewrite glider_start by assumption; reflexivity|]. intros i a b Ea Eb. assert (Hi : (i + 1 < T)%nat) by (rewrite <- (gliders_length n p T); apply nth_error_Some; congruence).
  rewrite gliders_nth in Ea by lia. rewrite gliders_nth in Eb by lia. injection Ea as <-. injection Eb as <-. rewrite Nat.add_1_r. apply glider_step. assumption.
Qed.

(** the bare machine: every run from an empty tape *)
Theorem C117_machine : forall n p cs t c, 3 <= n -> 0 <= p < n -> run_from nks22 (mkConf 1 p (repeat (SInt 0) (Z.to_nat n))) cs -> nth_error cs t = Some c ->
  c = glider n p t /\ next nks22 c = Some (glider n p (t + 1)).
Proof.
  intros n p cs t c Hn Hp [H0 Hs] Ec. assert (E : c = glider n p t).
  { revert c Ec. induction t as [|t IH]; intros c Ec; [rewrite glider_start by assumption; congruence|]. destruct (nth_error cs t) as [b|] eqn:Eb.
    - pose proof (Hs t b c Eb ltac:(rewrite Nat.add_1_r; assumption)) as En. rewrite (IH b eq_refl), glider_step in En by assumption. injection En as <-. reflexivity.
    - apply nth_error_None in Eb. assert (Hlt : (S t < length cs)%nat) by (apply nth_error_Some; congruence). lia. }
  split; [assumption|]. rewrite E, Nat.add_1_r. apply glider_step. assumption.
Qed.
Print Assumptions C117_machine.

(** every eight steps the tape is empty again and the head, in the state up, is two cells further to the right; at no time are more than three cells on; after 8n steps all is as at the start *)
Theorem C117_glides : forall n p t, 3 <= n -> 0 <= p < n ->
  glider n p (8 * t) = mkConf 1 ((p + 2 * Z.of_nat t) mod n) (repeat (SInt 0) (Z.to_nat n)) /\
  (length (filter (fun s => match s with SInt 0 => false | _ => true end) (cf_tape (glider n p t))) <= 3)%nat /\
  glider n p (t + 8 * Z.to_nat n) = glider n p t.
Proof.
  intros n p t Hn Hp. split; [|split].
  - unfold glider. rewrite Nat.mul_comm, Nat.div_mul, Nat.mod_mul by lia. cbn [phase]. rewrite lit_dark by lia. rewrite Z.add_0_r. reflexivity.
  - assert (Hf : forall c on, (length on <= 3)%nat -> (length (filter (fun s => match s with SInt 0 => false | _ => true end) (lit n c on)) <= 3)%nat).
    { intros c on Hl. eapply Nat.le_trans; [|exact Hl]. rewrite <- (map_length (fun o => (c + o) mod n) on).
      assert (E : length (filter (fun s => match s with SInt 0 => false | _ => true end) (lit n c on)) = length (filter (fun x => existsb (fun o => (c + o) mod n =? x) on) (zrange 0 n))).
      { unfold lit. induction (zrange 0 n) as [|x l IH]; [reflexivity|]. cbn [map filter]. destruct (existsb _ on); cbn [length]; lia. }
      rewrite E. apply NoDup_incl_length; [apply NoDup_filter, NoDup_zrange|]. intros x Hx. apply filter_In in Hx. destruct Hx as [_ Hx]. apply existsb_exists in Hx. destruct Hx as (o & Ho & Eo). apply Z.eqb_eq in Eo. apply in_map_iff. exists o. auto. }
    unfold glider. assert (Hm : (t mod 8 < 8)%nat) by (apply Nat.mod_upper_bound; lia). destruct (t mod 8)%nat as [|[|[|[|[|[|[|j]]]]]]]; cbn [phase cf_tape]; apply Hf; cbn [length]; lia.
  - unfold glider. replace (t + 8 * Z.to_nat n)%nat with (t + Z.to_nat n * 8)%nat by lia. rewrite Nat.div_add, Nat.mod_add by lia. destruct (phase (t mod 8)) as [[q o] on]. replace (p + 2 * Z.of_nat (t / 8 + Z.to_nat n)) with (p + 2 * Z.of_nat (t / 8) + 2 * n) by lia.
    assert (E : forall a, (p + 2 * Z.of_nat (t / 8) + 2 * n + a) mod n = (p + 2 * Z.of_nat (t / 8) + a) mod n) by (intros a; replace (p + 2 * Z.of_nat (t / 8) + 2 * n + a) with (p + 2 * Z.of_nat (t / 8) + a + 2 * n) by lia; apply Z.mod_add; lia).
    rewrite E. f_equal. unfold lit. apply map_ext. intros x. do 2 f_equal. clear -E. assert (Eb : existsb (fun o => (p + 2 * Z.of_nat (t / 8) + 2 * n + o) mod n =? x) on = existsb (fun o => (p + 2 * Z.of_nat (t / 8) + o) mod n =? x) on) by (induction on as [|a l IH]; [reflexivity|]; cbn [existsb]; rewrite E, IH; reflexivity). rewrite Eb. reflexivity.
Qed.
Print Assumptions C117_glides.

Definition heads (str : Z -> string) (n p : Z) (T : nat) : list (list (option string)) :=
  map (fun t => map (fun j => if j =? cf_p (glider n p t) then Some (str (cf_q (glider n p t))) else None) (zrange 0 n)) (seq 0 T).
Definition tapes (n p : Z) (T : nat) : list (list sym) := map (fun t => cf_tape (glider n p t)) (seq 0 T).

(** turing_machine_demo2.py:25-34 *)
Theorem C117_tape_centric : forall {BA BN I} (W : env Z Z sym BA BN) (g : @args Z Z sym (tape_centric Z) I) str n p T net fuel,
  static g (tc_rule nks22) -> (forall i, e_lab W i = Z.of_nat i) -> 3 <= n -> 0 <= p < n -> (1 <= T)%nat -> (T <= fuel)%nat -> tc_network n = Ok net ->
  exists m traj, evolve W fuel (tc_init 1 p) net (Some (CList (repeat (SInt 0) (Z.to_nat n)))) (Some (Z.of_nat T)) None g = Ok (m, traj) /\
    get_activities_over_time_as_list W Z.leb traj = Ok (tapes n p T) /\ tc_head_activities W str n m traj = Ok (heads str n p T).
Proof.
  intros BA BN I W g str n p T net fuel Hst Hlab Hn Hp HT Hf Enet.
  destruct (C45_tape_centric_run W nks22 n net fuel 1 p (repeat (SInt 0) (Z.to_nat n)) g (gliders n p T)) as (m & traj & Ev & _ & Ha & _ & Hh).
  - exact Hst.
  - exact Hn.
  - exact Enet.
  - exact Hlab.
  - exact Hp.
  - rewrite repeat_length. lia.
  - apply gliders_run; assumption.
  - rewrite gliders_length. assumption.
  - exists m, traj. rewrite gliders_length in Ev. split; [exact Ev|]. split; [rewrite Ha; unfold gliders, tapes; rewrite map_map; reflexivity|]. rewrite Hh. unfold gliders, heads. rewrite map_map. reflexivity.
Qed.
Print Assumptions C117_tape_centric.

Lemma nks22_readable : writes_readable nks22.
Proof.
  intros q s q' s' d Ee. unfold entry, nks22 in Ee. cbn [dget] in Ee. repeat match type of Ee with context[eqd ?a ?b] => destruct (eqd a b); cbn [dget] in Ee end; try discriminate; injection Ee; intros; subst; exact I.
Qed.
(** turing_machine_demo1.py:25-33 *)
Theorem C117_head_centric : forall {BA BN} (W : env Z Z (Z * Z) BA BN) (g : @args Z Z (Z * Z) head_centric Z) str n p T net m0 ts fuel,
  static g (hc_rule nks22 None) -> e_lab W 0 = 0 -> e_idx W 0 = Some 0 -> 3 <= n -> 0 <= p < n -> (1 <= T)%nat -> (T <= fuel)%nat ->
  hc_network = Ok net -> hc_init (Q := Z) None (Some (Z.of_nat T)) (repeat (SInt 0) (Z.to_nat n)) p = Ok m0 ->
  exists m traj, evolve W fuel m0 net (Some (hc_initial_conditions 1 p)) ts (Some (InputFun (hc_input (Some (Z.of_nat T))))) g = Ok (m, traj) /\
    hc_activities_for_plotting W str m traj = Ok (tapes n p T, heads str n p T).
Proof.
  intros BA BN W g str n p T net m0 ts fuel Hst Hlab Hidx Hn Hp HT Hf Enet Em.
  destruct (C44_head_centric_run W nks22 None (Some (Z.of_nat T)) net m0 g fuel ts 1 p (repeat (SInt 0) (Z.to_nat n)) (gliders n p T)) as (m & traj & Ev & Ht & Ha).
  - exact Hst.
  - exact Hlab.
  - exact Hidx.
  - apply Forall_forall. intros x Hx. apply repeat_spec in Hx. rewrite Hx. exact I.
  - exact nks22_readable.
  - rewrite repeat_length. lia.
  - exact Enet.
  - exact Em.
  - apply gliders_run; assumption.
  - rewrite gliders_length. assumption.
  - intros i c Ei. rewrite gliders_length. assert (Hi : (i < T)%nat) by (rewrite <- (gliders_length n p T); apply nth_error_Some; congruence). unfold stopped. split; [intros [E|[_ E]]; [injection E; lia|discriminate]|]. intros Hi'. left. f_equal. lia.
  - exists m, traj. split; [exact Ev|]. rewrite (C44_plotting W str (gliders n p T) m traj (Z.to_nat n)).
    + unfold gliders, tapes, heads. rewrite !map_map, Z2Nat.id by lia. reflexivity.
    + intros E0. pose proof (gliders_length n p T) as El. rewrite E0 in El. cbn in El. lia.
    + exact Ht.
    + exact Ha.
    + intros c Hc. unfold gliders in Hc. apply in_map_iff in Hc. destruct Hc as (t & <- & _). unfold glider. destruct (phase (t mod 8)) as [[q o] on]. cbn [cf_tape cf_p]. pose proof (length_lit n (p + 2 * Z.of_nat (t / 8)) on ltac:(lia)). split; [lia|]. rewrite Z2Nat.id by lia. apply Z.mod_pos_bound. lia.
Qed.
Print Assumptions C117_head_centric.

(** on two cells the pattern meets itself *)
Theorem C117_two_cells_refuted : exists p c, 0 <= p < 2 /\ nth_error (iterate nks22 20 (mkConf 1 p (repeat (SInt 0) 2))) 4 = Some c /\ c <> glider 2 p 4.
Proof. exists 0. eexists. split; [lia|]. split; [vm_compute; reflexivity|]. vm_compute. discriminate. Qed.
Print Assumptions C117_two_cells_refuted.

(** the demos' runs: 21 cells, the head on cell 3, 61 timesteps *)
Example C117_demo : glider 21 3 56 = mkConf 1 17 (repeat (SInt 0) 21) /\
  glider 21 3 60 = mkConf 2 17 (repeat (SInt 0) 16 ++ [SInt 1; SInt 1; SInt 1; SInt 0; SInt 0]) /\
  static (gt nks22) (tc_rule nks22) /\ static (gh nks22 None) (hc_rule nks22 None) /\ (exists net, tc_network 21 = Ok net) /\ (exists net, hc_network = Ok net) /\
  exists m0, hc_init (Q := Z) None (Some (Z.of_nat 61)) (repeat (SInt 0) (Z.to_nat 21)) 3 = Ok m0.
Proof. split; [vm_compute; reflexivity|]. split; [vm_compute; reflexivity|]. split; [unfold static; splits; reflexivity|]. split; [unfold static; splits; reflexivity|]. split; [eexists; vm_compute; reflexivity|]. split; [eexists; vm_compute; reflexivity|]. eexists. vm_compute. reflexivity. Qed.
