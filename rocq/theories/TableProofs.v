(** * Proofs about rule tables *)
From Coq Require Import Ascii.
From Verif Require Import Py PyFacts ListFacts Network Evolve Rules RulesSpec RulesProofs RuleTables TableSpec.
Open Scope list_scope.
Open Scope Z_scope.

Lemma digit_symbol d : 0 <= d < 36 -> digit_char d = symbol d.
Proof.
  intros Hd. assert (Hb : forallb (fun n => if ascii_dec (digit_char (Z.of_nat n)) (symbol (Z.of_nat n)) then true else false) (seq 0 36) = true) by (vm_compute; reflexivity).
  rewrite forallb_forall in Hb. specialize (Hb (Z.to_nat d)). rewrite Z2Nat.id in Hb by lia.
  assert (Hi : In (Z.to_nat d) (seq 0 36)) by (apply in_seq; lia). specialize (Hb Hi). destruct (ascii_dec _ _); [assumption|discriminate].
Qed.

Lemma map_digit_written k ds : 2 <= k <= 36 -> is_states k ds -> map digit_char ds = written ds.
Proof. intros Hk Hd. apply map_ext_in. intros d Hin. unfold is_states in Hd. rewrite Forall_forall in Hd. specialize (Hd d Hin). apply digit_symbol. lia. Qed.

Lemma written_inj ds ds' : is_states 36 ds -> is_states 36 ds' -> written ds = written ds' -> ds = ds'.
Proof.
  intros Hd. revert ds'. induction Hd as [|d ds Hx Hd IH]; intros [|d' ds'] Hd' E; try discriminate; [reflexivity|]. inversion Hd'; subst. unfold written in E. cbn [map] in E. injection E as E1 E2. f_equal; [|apply IH; assumption].
  rewrite <- !digit_symbol in E1 by assumption. apply (f_equal (fun c => int_of_char c 36)) in E1. rewrite !digit_char_inv in E1 by lia. congruence.
Qed.

Lemma is_states_36 k ds : k <= 36 -> is_states k ds -> is_states 36 ds.
Proof. intros Hk. apply Forall_impl. intros; lia. Qed.

Lemma py_str_digit d : 0 <= d < 10 -> py_str d = [symbol d].
Proof.
  intros Hd. assert (Hb : forallb (fun n => if list_eq_dec ascii_dec (py_str (Z.of_nat n)) [symbol (Z.of_nat n)] then true else false) (seq 0 10) = true) by (vm_compute; reflexivity).
  rewrite forallb_forall in Hb. specialize (Hb (Z.to_nat d)). rewrite Z2Nat.id in Hb by lia.
  assert (Hi : In (Z.to_nat d) (seq 0 10)) by (apply in_seq; lia). specialize (Hb Hi). destruct (list_eq_dec _ _ _); [assumption|discriminate].
Qed.

Lemma state_repr_written ds : is_states 10 ds -> List.concat (map py_str ds) = written ds.
Proof. induction 1 as [|d ds Hd Hx IH]; [reflexivity|]. unfold written. cbn [map List.concat]. rewrite py_str_digit by assumption. cbn [app]. f_equal. exact IH. Qed.

(** ** the neighbourhood strings *)
Lemma all_states_spec k r : 2 <= k <= 36 -> 0 <= r -> exists ss, all_states k r = Ok ss /\ NoDup ss /\ Z.of_nat (length ss) = k ^ (2 * r + 1) /\
  forall s, In s ss <-> exists ds, is_states k ds /\ Z.of_nat (length ds) = 2 * r + 1 /\ s = written ds.
Proof.
  intros Hk Hr. unfold all_states. destruct (Z.ltb_spec (2 * r + 1) 0); [lia|]. set (n := 2 * r + 1) in *. set (K := k ^ n).
  assert (HK : 0 < K) by (apply Z.pow_pos_nonneg; lia).
  assert (Hg : forall l, (forall i, In i l -> 0 <= i < K) -> exists ss, rmap (fun i => s <- base_repr i k ;; Ok (zfill s n)) l = Ok ss /\
    Forall2 (fun i s => exists ds, is_states k ds /\ Z.of_nat (length ds) = n /\ number k ds = i /\ s = written ds) l ss).
  { induction l as [|i l IH]; intros Hl; [exists []; split; [reflexivity|constructor]|].
    destruct IH as (ss & E & Hf); [intros; apply Hl; right; assumption|].
    destruct (padded_repr i k n Hk (Hl i (or_introl eq_refl)) ltac:(lia)) as (ds & Ed & Hs & Hv & Hlen). exists (written ds :: ss). split.
    - cbn [rmap]. rewrite Ed. cbn [rbind]. rewrite E. cbn. rewrite (map_digit_written k) by assumption. reflexivity.
    - constructor; [exists ds; auto|assumption]. }
  destruct (Hg (zrange 0 K)) as (ss & E & Hf); [intros i Hi; apply in_zrange in Hi; lia|]. exists ss. split; [exact E|].
  assert (Hnth : forall j s, nth_error ss j = Some s -> exists ds, is_states k ds /\ Z.of_nat (length ds) = n /\ number k ds = Z.of_nat j /\ s = written ds).
  { intros j s Ej. assert (Hj : exists i, nth_error (zrange 0 K) j = Some i /\ exists ds, is_states k ds /\ Z.of_nat (length ds) = n /\ number k ds = i /\ s = written ds).
    { clear - Hf Ej. revert j Ej. induction Hf; intros [|j] Ej; try discriminate; cbn in *; [injection Ej as <-; eauto|eauto]. }
    destruct Hj as (i & Ei & ds & H1 & H2 & H3 & H4). assert (Hjl : (j < length (zrange 0 K))%nat) by (apply nth_error_Some; congruence). rewrite length_zrange in Hjl.
    rewrite nth_error_zrange in Ei by lia. injection Ei as <-. exists ds. rewrite H3. auto with zarith. }
  assert (Hlen : Z.of_nat (length ss) = K) by (replace (length ss) with (length (zrange 0 K)) by (clear - Hf; induction Hf; cbn; congruence); rewrite length_zrange; lia).
  split; [|split; [assumption|]].
  - apply NoDup_nth_error. intros i j Hi Eij. destruct (nth_error ss i) as [s|] eqn:Ei; [|apply nth_error_None in Ei; lia]. symmetry in Eij.
    destruct (Hnth i s Ei) as (ds & A1 & A2 & A3 & A4), (Hnth j s Eij) as (ds' & B1 & B2 & B3 & B4).
    assert (ds = ds') by (apply written_inj; [apply (is_states_36 k); [lia|assumption]..|congruence]). subst ds'. lia.
  - intros s. split.
    + intros Hs. apply In_nth_error in Hs. destruct Hs as [j Ej]. destruct (Hnth j s Ej) as (ds & A1 & A2 & _ & A4). eauto.
    + intros (ds & A1 & A2 & ->). pose proof (number_range k ds ltac:(lia) A1) as Hr'. rewrite A2 in Hr'. fold K in Hr'.
      destruct (nth_error ss (Z.to_nat (number k ds))) as [s|] eqn:Es; [|apply nth_error_None in Es; lia].
      destruct (Hnth _ s Es) as (ds' & B1 & B2 & B3 & ->). assert (ds' = ds) by (apply (number_inj k); [lia|assumption|assumption|lia|lia]). subst. eapply nth_error_In. exact Es.
Qed.

(** ** uniform states *)
Lemma one_symbol_spec s : one_symbol s = true <-> uniform s.
Proof.
  unfold one_symbol, uniform. rewrite Nat.eqb_eq. split.
  - intros Hl. destruct (nodup ascii_dec s) as [|c [|c' l]] eqn:En; try discriminate. assert (Hall : forall x, In x s -> x = c).
    { intros x Hx. apply (nodup_In ascii_dec) in Hx. rewrite En in Hx. destruct Hx as [->|[]]. reflexivity. }
    destruct s as [|x s]; [discriminate|]. exists c, (length s). assert (Hr : forall l, (forall x, In x l -> x = c) -> l = repeat c (length l)).
    { induction l as [|y l IH]; intros Hy; [reflexivity|]. cbn. f_equal; [apply Hy; left; reflexivity|apply IH; intros; apply Hy; right; assumption]. }
    apply (Hr (x :: s)). assumption.
  - intros (c & m & ->). induction m as [|m IH]; [reflexivity|]. change (repeat c (S (S m))) with (c :: repeat c (S m)). cbn [nodup].
    destruct (in_dec ascii_dec c (repeat c (S m))) as [_|Hn]; [exact IH|]. exfalso. apply Hn. left. reflexivity.
Qed.
Lemma rev_repeat {X} (c : X) m : rev (repeat c m) = repeat c m.
Proof.
  assert (Hs : forall m, repeat c m ++ [c] = c :: repeat c m) by (induction m0 as [|m0 IH]; cbn; [reflexivity|rewrite IH; reflexivity]).
  induction m as [|m IH]; [reflexivity|]. cbn. rewrite IH. apply Hs.
Qed.
Lemma uniform_rev s : uniform (rev s) <-> uniform s.
Proof.
  split; intros (c & m & E); exists c, m.
  - rewrite <- (rev_involutive s), E. apply rev_repeat.
  - rewrite E. apply rev_repeat.
Qed.
Lemma uniform_rev_eq s : uniform s -> rev s = s.
Proof. intros (c & m & ->). apply rev_repeat. Qed.

(** ** counting entries *)
Definition is_q (q v : Z) : Z := if Z.eq_dec v q then 1 else 0.
Lemma entries_dset (t : table) s v q :
  entries_equal (dset t s v) q = entries_equal t q + is_q q v - match dget t s with Some o => is_q q o | None => 0 end.
Proof.
  unfold entries_equal, is_q. induction t as [|[x o] t IH]; [cbn; destruct (Z.eq_dec v q); cbn; lia|]. cbn [dset dget]. destruct (eqd s x) as [->|Hne].
  - cbn [map snd occurs]. destruct (Z.eq_dec v q), (Z.eq_dec o q); lia.
  - cbn [map snd occurs]. destruct (Z.eq_dec o q); lia.
Qed.
Lemma entries_bounds (t : table) q : 0 <= entries_equal t q <= Z.of_nat (length t).
Proof. unfold entries_equal. induction t as [|[x o] t IH]; cbn [map snd occurs length]; [lia|]. destruct (Z.eq_dec o q); lia. Qed.
Lemma length_dset (t : table) s v : length (dset t s v) = (length t + match dget t s with Some _ => 0 | None => 1 end)%nat.
Proof. induction t as [|[x o] t IH]; [reflexivity|]. cbn [dset dget]. destruct (eqd s x); cbn [length]; [lia|]. rewrite IH. lia. Qed.
Lemma entry_in (t : table) s q : dget t s = Some q -> 1 <= entries_equal t q.
Proof. intros E. unfold entries_equal. apply dget_some_in in E. assert (0 < occurs (map snd t) q)%nat by (apply occurs_pos; apply in_map_iff; exists (s, q); auto). lia. Qed.

Lemma other_states_spec k q v : In v (other_states k q) <-> 0 <= v < k /\ v <> q.
Proof. unfold other_states. rewrite filter_In, in_zrange. destruct (Z.eqb_spec v q); cbn; intuition (try lia; try discriminate). Qed.
Lemma other_states_nonempty k q : 2 <= k -> other_states k q <> [].
Proof.
  intros Hk E. destruct (Z.eq_dec q 0) as [->|Hq].
  - assert (Hi : In 1 (other_states k 0)) by (apply other_states_spec; lia). rewrite E in Hi. destruct Hi.
  - assert (Hi : In 0 (other_states k q)) by (apply other_states_spec; lia). rewrite E in Hi. destruct Hi.
Qed.
Lemma choice_in {X} pick i (l : list X) : l <> [] -> exists x, choice pick i l = Ok x /\ In x l.
Proof.
  intros Hne. unfold choice. assert (Hl : length l <> 0%nat) by (destruct l; [congruence|discriminate]).
  destruct (nth_error l (pick i mod length l)) as [x|] eqn:E; [exists x; split; [reflexivity|eapply nth_error_In; exact E]|].
  apply nth_error_None in E. pose proof (Nat.mod_upper_bound (pick i) _ Hl). lia.
Qed.

(** ** random_rule_table *)
Section Random.
  Context {F : Type} (quot : Z -> Z -> F) (coin : nat -> bool) (pick : nat -> nat).

  Definition table_inv (k q : Z) (strong isotropic : bool) (done : list str) (t : table) (c : Z) : Prop :=
    dkeys t = done /\ (forall s v, dget t s = Some v -> 0 <= v < k) /\ c = entries_equal t q /\
    (strong = true -> forall d m, 0 <= d < k -> In (written (repeat d (S m))) done -> dget t (written (repeat d (S m))) = Some d) /\
    (isotropic = true -> forall s, In s done -> In (rev s) done -> dget t s = dget t (rev s)).

  Lemma random_entry_ok k q strong isotropic done t c i s ds : 2 <= k <= 36 -> 0 <= q < k -> is_states k ds -> s = written ds -> ~ In s done ->
    table_inv k q strong isotropic done t c ->
    exists t' c', random_entry coin pick k q strong isotropic (t, c, i) s = Ok (t', c', S i) /\ table_inv k q strong isotropic (done ++ [s]) t' c'.
  Proof.
    intros Hk Hq Hds Hs Hnew (I1 & I2 & I3 & I4 & I5).
    assert (Hgs : dget t s = None) by (destruct (dget t s) eqn:E; [exfalso; apply Hnew; rewrite <- I1; apply dget_some_in in E; apply in_map_iff; eexists; split; [|exact E]; reflexivity|reflexivity]).
    assert (Hset : forall v c', 0 <= v < k -> c' = c + is_q q v -> (strong = true -> forall d m, s = written (repeat d (S m)) -> 0 <= d < k -> v = d) ->
      (isotropic = true -> In (rev s) done -> Some v = dget t (rev s)) -> table_inv k q strong isotropic (done ++ [s]) (dset t s v) c').
    { intros v c' Hv Hc Hu Hi. split; [rewrite dkeys_dset; unfold dmem; rewrite Hgs, I1; reflexivity|].
      split; [intros x w; rewrite dget_dset; destruct (eqd x s); [intros E; injection E as <-; assumption|apply I2]|].
      split; [rewrite entries_dset, Hgs; lia|]. split.
      - intros Hst d m Hd Hin. rewrite dget_dset. destruct (eqd _ s) as [E|Hne]; [f_equal; apply (Hu Hst d m); auto|].
        apply in_app_or in Hin. destruct Hin as [Hin|[Hin|[]]]; [auto|congruence].
      - intros His x Hx Hrx. rewrite !dget_dset. destruct (eqd x s) as [->|Hxs], (eqd (rev _) s) as [Hrs|Hrs].
        + reflexivity.
        + apply in_app_or in Hrx. destruct Hrx as [Hrx|[Hrx|[]]]; [auto|congruence].
        + apply in_app_or in Hx. destruct Hx as [Hx|[Hx|[]]]; [|congruence].
          assert (Ex : x = rev s) by (rewrite <- Hrs, rev_involutive; reflexivity). rewrite Ex in *. symmetry. auto.
        + apply in_app_or in Hx. apply in_app_or in Hrx. destruct Hx as [Hx|[Hx|[]]]; [|congruence]. destruct Hrx as [Hrx|[Hrx|[]]]; [auto|congruence]. }
    assert (Hcount : forall v, (if v =? q then c + 1 else c) = c + is_q q v) by (intros v; unfold is_q; destruct (Z.eqb_spec v q), (Z.eq_dec v q); lia).
    unfold random_entry. destruct (strong && one_symbol s) eqn:Eb.
    - apply andb_true_iff in Eb. destruct Eb as [Est Eu]. apply one_symbol_spec in Eu. destruct ds as [|d ds]; [subst s; destruct Eu as (ch & m & E); discriminate|].
      inversion Hds as [|? ? Hd Hds']; subst. cbn [written map]. change (py_nth (symbol d :: map symbol ds) 0) with (Some (symbol d)). cbn [of_opt rbind].
      rewrite <- digit_symbol by lia. rewrite digit_char_inv by lia. cbn [rbind]. eexists. eexists. split; [reflexivity|]. rewrite digit_symbol by lia.
      change (symbol d :: map symbol ds) with (written (d :: ds)). apply Hset; [assumption|apply Hcount| |].
      + intros _ e m E He. change (repeat e (S m)) with (e :: repeat e m) in E. unfold written in E. cbn [map] in E. injection E as E _. rewrite <- !digit_symbol in E by lia. apply (f_equal (fun c => int_of_char c 36)) in E. rewrite !digit_char_inv in E by lia. congruence.
      + intros _ Hin. rewrite uniform_rev_eq in Hin by assumption. contradiction.
    - assert (Hnu : strong = true -> forall d m, s = written (repeat d (S m)) -> False).
      { intros Hst d m E. rewrite Hst in Eb. cbn in Eb. apply not_true_iff_false in Eb. apply Eb. apply one_symbol_spec. exists (symbol d), m. rewrite E. unfold written. apply map_repeat'. }
      destruct (if isotropic then dget t (rev s) else None) as [v|] eqn:Ei.
      + destruct isotropic; [|discriminate]. eexists. eexists. split; [reflexivity|]. apply Hset; [eapply I2; exact Ei|apply Hcount| |].
        * intros Hst d m E. exfalso. eapply Hnu; eassumption.
        * intros _ _. symmetry. exact Ei.
      + assert (Hni : isotropic = true -> ~ In (rev s) done).
        { intros ->. intros Hin. rewrite <- I1 in Hin. apply dmem_true in Hin. unfold dmem in Hin. rewrite Ei in Hin. discriminate. }
        destruct (coin i).
        * eexists. eexists. split; [reflexivity|]. apply Hset; [lia|unfold is_q; destruct (Z.eq_dec q q); [reflexivity|congruence]| |].
          -- intros Hst d m E. exfalso. eapply Hnu; eassumption.
          -- intros His Hin. exfalso. eapply Hni; eassumption.
        * destruct (choice_in pick i (other_states k q) (other_states_nonempty k q ltac:(lia))) as (v & Ev & Hv). apply other_states_spec in Hv. rewrite Ev. cbn [rbind].
          eexists. eexists. split; [reflexivity|]. apply Hset; [lia|unfold is_q; destruct (Z.eq_dec v q); lia| |].
          -- intros Hst d m E. exfalso. eapply Hnu; eassumption.
          -- intros His Hin. exfalso. eapply Hni; eassumption.
  Qed.

  Lemma random_fold k q strong isotropic : 2 <= k <= 36 -> 0 <= q < k -> forall ss done t c i, NoDup (done ++ ss) ->
    (forall s, In s ss -> exists ds, is_states k ds /\ s = written ds) -> table_inv k q strong isotropic done t c ->
    exists t' c' j, rfold (random_entry coin pick k q strong isotropic) ss (t, c, i) = Ok (t', c', j) /\ table_inv k q strong isotropic (done ++ ss) t' c'.
  Proof.
    intros Hk Hq. induction ss as [|s ss IH]; intros done t c i Hnd Hds Hi; [exists t, c, i; rewrite app_nil_r; auto|].
    destruct (Hds s (or_introl eq_refl)) as (ds & Hd & Es). assert (Hn : ~ In s done) by (apply NoDup_remove_2 in Hnd; intros Hx; apply Hnd, in_or_app; auto).
    destruct (random_entry_ok k q strong isotropic done t c i s ds Hk Hq Hd Es Hn Hi) as (t1 & c1 & E & Hi1). cbn [rfold]. rewrite E. cbn [rbind].
    destruct (IH (done ++ [s]) t1 c1 (S i)) as (t' & c' & j & E' & Hi'); [rewrite <- app_assoc; exact Hnd|intros; apply Hds; right; assumption|exact Hi1|].
    exists t', c', j. split; [exact E'|]. rewrite <- app_assoc in Hi'. exact Hi'.
  Qed.

  Theorem random_rule_table_ok k r quiescent qdraw strong isotropic : 2 <= k <= 36 -> 0 <= r ->
    let q := match quiescent with Some q => q | None => qdraw end in 0 <= q < k ->
    exists t, random_rule_table quot coin pick k r quiescent qdraw strong isotropic = Ok (t, quot (k ^ (2 * r + 1) - entries_equal t q) (k ^ (2 * r + 1)), q) /\
      NoDup (dkeys t) /\ Z.of_nat (length t) = k ^ (2 * r + 1) /\
      (forall s, In s (dkeys t) <-> exists ds, is_states k ds /\ Z.of_nat (length ds) = 2 * r + 1 /\ s = written ds) /\
      (forall s v, dget t s = Some v -> 0 <= v < k) /\
      (strong = true -> forall d, 0 <= d < k -> dget t (written (repeat d (Z.to_nat (2 * r + 1)))) = Some d) /\
      (isotropic = true -> forall s, dget t s = dget t (rev s)).
  Proof.
    intros Hk Hr q Hq. destruct (all_states_spec k r Hk Hr) as (ss & Ess & Hnd & Hlen & Hin). unfold random_rule_table. rewrite Ess. cbn [rbind]. fold q.
    destruct (Z.leb_spec 0 q); [|lia]. destruct (Z.leb_spec q (k - 1)); [|lia]. cbn [andb negb].
    destruct (random_fold k q strong isotropic Hk Hq ss [] [] 0 0%nat Hnd) as (t & c & j & E & I1 & I2 & I3 & I4 & I5).
    - intros s Hs. apply Hin in Hs. destruct Hs as (ds & H1 & _ & H2). eauto.
    - split; [reflexivity|]. split; [discriminate|]. split; [reflexivity|]. split; [intros _ d m _ []|intros _ s []].
    - rewrite E. cbn [rbind]. rewrite I3. exists t. split; [reflexivity|]. cbn [app] in *. rewrite I1 in *. split; [assumption|].
      split; [rewrite <- (map_length fst t); change (map fst t) with (dkeys t); rewrite I1; assumption|]. split; [assumption|]. split; [assumption|].
      assert (Hrev : forall s, In s ss -> In (rev s) ss).
      { intros s Hs. apply Hin in Hs. destruct Hs as (ds & A1 & A2 & ->). apply Hin. exists (rev ds). split; [apply is_states_rev; assumption|]. split; [rewrite rev_length; assumption|]. symmetry. apply map_rev. }
      split.
      + intros Hst d Hd. replace (Z.to_nat (2 * r + 1)) with (S (Z.to_nat (2 * r))) by lia. apply (I4 Hst d); [assumption|]. apply Hin. eexists. split; [|split; [|reflexivity]].
        * apply Forall_forall. intros x Hx. apply repeat_spec in Hx. lia.
        * rewrite repeat_length. lia.
      + intros His s. destruct (in_dec (list_eq_dec ascii_dec) s ss) as [Hs|Hs]; [apply (I5 His); auto|].
        assert (Hnone : forall x, ~ In x ss -> dget t x = None).
        { intros x Hx. destruct (dget t x) eqn:Ex; [|reflexivity]. exfalso. apply Hx. rewrite <- I1. apply dget_some_in in Ex. apply in_map_iff. eexists; split; [|exact Ex]. reflexivity. }
        rewrite !Hnone; [reflexivity|intros Hx; apply Hs; rewrite <- (rev_involutive s); auto|assumption].
  Qed.
End Random.

(** ** table_walk_through *)
Section WalkThrough.
  Context {F : Type} (quot : Z -> Z -> F) (flt feq : F -> F -> bool) (pick : nat -> nat).
  Context (k r q : Z) (strong isotropic : bool) (target : F).

  Definition lam (t : table) : F := quot (k ^ (2 * r + 1) - entries_equal t q) (k ^ (2 * r + 1)).
  Lemma actual_lambda_lam t : actual_lambda quot k r q t = lam t.
  Proof. unfold actual_lambda, lam, entries_equal. rewrite occurs_count. reflexivity. Qed.

  Lemma in_candidates p t s : In s (candidates strong p t) <-> admissible dget strong (fun v => p v = true) t s.
  Proof.
    unfold candidates, admissible.
    assert (Hf : In s (filter (fun s => match dget t s with Some v => p v | None => false end) (dkeys t)) <-> exists v, dget t s = Some v /\ p v = true).
    { rewrite filter_In. split.
      - intros [_ Hs]. destruct (dget t s) as [v|]; [eauto|discriminate].
      - intros (v & Ev & Hv). split; [apply dget_some_in in Ev; apply in_map_iff; eexists; split; [|exact Ev]; reflexivity|]. rewrite Ev. assumption. }
    destruct strong.
    - rewrite filter_In, Hf, negb_true_iff. split.
      + intros [Hv Hn]. split; [assumption|]. intros _ Hu. apply one_symbol_spec in Hu. congruence.
      + intros [Hv Hn]. split; [assumption|]. apply not_true_iff_false. intros Hx. apply one_symbol_spec in Hx. apply Hn; auto.
    - rewrite Hf. split; [intros Hv; split; [assumption|discriminate]|tauto].
  Qed.
  Lemma no_candidates p t : candidates strong p t = [] <-> forall s, ~ admissible dget strong (fun v => p v = true) t s.
  Proof.
    split.
    - intros E s Hs. apply in_candidates in Hs. rewrite E in Hs. destruct Hs.
    - intros Hn. destruct (candidates strong p t) as [|s l] eqn:E; [reflexivity|]. exfalso. apply (Hn s). apply in_candidates. rewrite E. left. reflexivity.
  Qed.

  Lemma perturb_changed t s v : changed dget isotropic t s v (perturb isotropic t s v) \/ ~ In s (dkeys t).
  Proof.
    destruct (in_dec (list_eq_dec ascii_dec) s (dkeys t)) as [Hin|Hn]; [left|right; assumption]. unfold perturb, changed. destruct isotropic.
    - split; [|split].
      + intros x [->|[_ ->]]; rewrite !dget_dset; [destruct (eqd s (rev s)); [reflexivity|]; destruct (eqd s s); congruence|]. destruct (eqd (rev s) (rev s)); congruence.
      + intros x H1 H2. rewrite !dget_dset. destruct (eqd x (rev s)) as [E|_]; [exfalso; apply H2; auto|]. destruct (eqd x s); congruence.
      + intros Hr. specialize (Hr eq_refl). change (map fst) with (@dkeys str Z). rewrite !dkeys_dset.
        assert (Em : dmem t s = true) by (apply dmem_true; assumption). rewrite Em.
        assert (Em' : dmem (dset t s v) (rev s) = true) by (apply dmem_true; rewrite dkeys_dset, Em; assumption). rewrite Em'. reflexivity.
    - split; [|split].
      + intros x [->|[Hx _]]; [|discriminate]. rewrite dget_dset. destruct (eqd s s); congruence.
      + intros x H1 _. rewrite dget_dset. destruct (eqd x s); congruence.
      + intros _. change (map fst) with (@dkeys str Z). rewrite dkeys_dset. assert (Em : dmem t s = true) by (apply dmem_true; assumption). rewrite Em. reflexivity.
  Qed.

  Lemma perturb_length t s v : (length t <= length (perturb isotropic t s v))%nat.
  Proof. unfold perturb. destruct isotropic; rewrite ?length_dset; lia. Qed.

  Lemma perturb_to_q t s o : dget t s = Some o -> o <> q ->
    entries_equal t q < entries_equal (perturb isotropic t s q) q /\
    Z.of_nat (length (perturb isotropic t s q)) - entries_equal (perturb isotropic t s q) q <= Z.of_nat (length t) - entries_equal t q - 1.
  Proof.
    intros Es Ho. unfold perturb. assert (E1 : entries_equal (dset t s q) q = entries_equal t q + 1) by (rewrite entries_dset, Es; unfold is_q; destruct (Z.eq_dec q q), (Z.eq_dec o q); try congruence; lia).
    assert (L1 : length (dset t s q) = length t) by (rewrite length_dset, Es; lia).
    destruct isotropic; [|rewrite E1, L1; lia]. rewrite entries_dset, length_dset, E1, L1. unfold is_q. destruct (Z.eq_dec q q); [|congruence].
    destruct (dget (dset t s q) (rev s)) as [o'|]; [destruct (Z.eq_dec o' q)|]; lia.
  Qed.

  Lemma perturb_from_q t s v : dget t s = Some q -> v <> q ->
    entries_equal (perturb isotropic t s v) q < entries_equal t q.
  Proof.
    intros Es Hv. unfold perturb. assert (E1 : entries_equal (dset t s v) q = entries_equal t q - 1) by (rewrite entries_dset, Es; unfold is_q; destruct (Z.eq_dec q q), (Z.eq_dec v q); try congruence; lia).
    destruct isotropic; [|rewrite E1; lia]. rewrite entries_dset, E1. unfold is_q. destruct (Z.eq_dec v q); [congruence|].
    destruct (dget (dset t s v) (rev s)) as [o'|]; [destruct (Z.eq_dec o' q)|]; lia.
  Qed.

  Lemma reduce_ok : forall fuel attempts t, Z.of_nat (length t) - entries_equal t q < Z.of_nat fuel ->
    Z.of_nat attempts + (Z.of_nat (length t) - entries_equal t q) <= Z.of_nat (length t) ->
    exists t', reduce quot flt pick k r q strong isotropic target fuel attempts t = Ok t' /\
      walk dget strong isotropic (fun t => flt target (lam t) = true) (fun v => v <> q) (fun v => v = q) t t' /\
      entries_equal t q <= entries_equal t' q /\
      (flt target (lam t') = false \/ forall s, ~ admissible dget strong (fun v => v <> q) t' s).
  Proof.
    induction fuel as [|f IH]; intros attempts t Hf Ha; [pose proof (entries_bounds t q); lia|]. cbn [reduce]. rewrite actual_lambda_lam.
    assert (Hpq : forall s, admissible dget strong (fun v => negb (v =? q) = true) t s <-> admissible dget strong (fun v => v <> q) t s).
    { intros s. unfold admissible. split; intros [(v & E & Hv) Hx]; (split; [exists v; split; [assumption|]|assumption]); destruct (Z.eqb_spec v q); cbn in *; congruence. }
    destruct (flt target (lam t)) eqn:Eg; cbn [andb]; [|exists t; split; [reflexivity|]; split; [constructor|]; split; [lia|left; assumption]].
    destruct (Nat.ltb_spec attempts (length t)) as [Hlt|Hge].
    - destruct (candidates strong (fun v => negb (v =? q)) t) as [|s0 l0] eqn:Ec.
      + exists t. split; [reflexivity|]. split; [constructor|]. split; [lia|]. right. intros s Hs. apply Hpq in Hs. revert s Hs. apply no_candidates. assumption.
      + destruct (choice_in pick (2 * attempts) (s0 :: l0) ltac:(discriminate)) as (s & Es & Hin). rewrite Es. cbn [rbind].
        rewrite <- Ec in Hin. apply in_candidates, Hpq in Hin. destruct (proj1 Hin) as (o & Eo & Ho).
        destruct (perturb_to_q t s o Eo Ho) as [P1 P2].
        destruct (IH (S attempts) (perturb isotropic t s q)) as (t' & E' & Hw & He & Hstop); [lia|pose proof (perturb_length t s q); lia|].
        exists t'. split; [exact E'|]. split; [|split; [lia|assumption]].
        eapply walk_on; [exact Eg|exact Hin|reflexivity| |exact Hw].
        destruct (perturb_changed t s q) as [Hc|Hn]; [assumption|]. exfalso. apply Hn. apply dget_some_in in Eo. apply in_map_iff. eexists; split; [|exact Eo]. reflexivity.
    - exists t. split; [reflexivity|]. split; [constructor|]. split; [lia|]. right. intros s [(o & Eo & Ho) _].
      assert (Hb : entries_equal t q = Z.of_nat (length t)) by (pose proof (entries_bounds t q); lia).
      destruct (perturb_to_q t s o Eo Ho) as [_ P2]. pose proof (entries_bounds (perturb isotropic t s q) q). lia.
  Qed.

  Lemma increase_ok : 2 <= k -> forall fuel attempts t, entries_equal t q < Z.of_nat fuel ->
    Z.of_nat attempts + entries_equal t q <= Z.of_nat (length t) ->
    exists t', increase quot flt pick k r q strong isotropic target fuel attempts t = Ok t' /\
      walk dget strong isotropic (fun t => flt (lam t) target = true) (fun v => v = q) (fun v => 0 <= v < k /\ v <> q) t t' /\
      entries_equal t' q <= entries_equal t q /\
      (flt (lam t') target = false \/ forall s, ~ admissible dget strong (fun v => v = q) t' s).
  Proof.
    intros Hk. induction fuel as [|f IH]; intros attempts t Hf Ha; [pose proof (entries_bounds t q); lia|]. cbn [increase]. rewrite actual_lambda_lam.
    assert (Hpq : forall s, admissible dget strong (fun v => (v =? q) = true) t s <-> admissible dget strong (fun v => v = q) t s).
    { intros s. unfold admissible. split; intros [(v & E & Hv) Hx]; (split; [exists v; split; [assumption|]|assumption]); destruct (Z.eqb_spec v q); cbn in *; congruence. }
    destruct (flt (lam t) target) eqn:Eg; cbn [andb]; [|exists t; split; [reflexivity|]; split; [constructor|]; split; [lia|left; assumption]].
    destruct (Nat.ltb_spec attempts (length t)) as [Hlt|Hge].
    - destruct (candidates strong (fun v => v =? q) t) as [|s0 l0] eqn:Ec.
      + exists t. split; [reflexivity|]. split; [constructor|]. split; [lia|]. right. intros s Hs. apply Hpq in Hs. revert s Hs. apply no_candidates. assumption.
      + destruct (choice_in pick (2 * attempts) (s0 :: l0) ltac:(discriminate)) as (s & Es & Hin). rewrite Es. cbn [rbind].
        destruct (choice_in pick (2 * attempts + 1) (other_states k q) (other_states_nonempty k q Hk)) as (v & Ev & Hv). rewrite Ev. cbn [rbind]. apply other_states_spec in Hv.
        rewrite <- Ec in Hin. apply in_candidates, Hpq in Hin. destruct (proj1 Hin) as (o & Eo & Ho). subst o.
        pose proof (perturb_from_q t s v Eo (proj2 Hv)) as P1.
        destruct (IH (S attempts) (perturb isotropic t s v)) as (t' & E' & Hw & He & Hstop); [lia|pose proof (perturb_length t s v); lia|].
        exists t'. split; [exact E'|]. split; [|split; [lia|assumption]].
        eapply walk_on; [exact Eg|exact Hin|exact Hv| |exact Hw].
        destruct (perturb_changed t s v) as [Hc|Hn]; [assumption|]. exfalso. apply Hn. apply dget_some_in in Eo. apply in_map_iff. eexists; split; [|exact Eo]. reflexivity.
    - exists t. split; [reflexivity|]. split; [constructor|]. split; [lia|]. right. intros s [(o & Eo & ->) _].
      pose proof (entry_in t s q Eo). lia.
  Qed.
End WalkThrough.

(** ** consequences of a walk *)
Section Consequences.
  Context (strong isotropic : bool) (go_on : table -> Prop) (p p' : Z -> Prop).
  Notation walk := (walk dget strong isotropic go_on p p').

  Lemma admissible_key t s : admissible dget strong p t s -> In s (dkeys t).
  Proof. intros [(v & E & _) _]. apply dget_some_in in E. apply in_map_iff. eexists; split; [|exact E]. reflexivity. Qed.

  Lemma walk_keys t t' : walk t t' -> (isotropic = true -> forall s, In s (dkeys t) -> In (rev s) (dkeys t)) -> dkeys t' = dkeys t.
  Proof.
    induction 1 as [t|t s v t1 t2 Hg Ha Hv Hc Hw IH]; intros Hr; [reflexivity|]. destruct Hc as (_ & _ & Hk).
    assert (E : dkeys t1 = dkeys t) by (apply Hk; intros Hi; apply (Hr Hi); eapply admissible_key; exact Ha). rewrite IH; [assumption|]. rewrite E. assumption.
  Qed.

  Lemma walk_uniform t t' : walk t t' -> strong = true -> forall s, uniform s -> dget t' s = dget t s.
  Proof.
    induction 1 as [t|t s v t1 t2 Hg Ha Hv Hc Hw IH]; intros Hs x Hx; [reflexivity|]. rewrite (IH Hs x Hx). destruct Hc as (_ & Hk & _). destruct Ha as [_ Hn]. specialize (Hn Hs).
    apply Hk; [intros ->; contradiction|]. intros _ ->. apply (proj1 (uniform_rev s)) in Hx. contradiction.
  Qed.

  Lemma walk_isotropic t t' : walk t t' -> isotropic = true -> (forall s, dget t s = dget t (rev s)) -> forall s, dget t' s = dget t' (rev s).
  Proof.
    induction 1 as [t|t s v t1 t2 Hg Ha Hv Hc Hw IH]; intros Hi Ht; [assumption|]. apply IH; [assumption|]. intros x. destruct Hc as (H1 & H2 & _).
    destruct (list_eq_dec ascii_dec x s) as [->|Hn1]; [rewrite !H1; auto|]. destruct (list_eq_dec ascii_dec x (rev s)) as [->|Hn2].
    - rewrite rev_involutive. rewrite !H1; auto.
    - rewrite !H2; auto.
      + intros E. apply Hn2. rewrite <- E, rev_involutive. reflexivity.
      + intros _ E. apply Hn1. rewrite <- (rev_involutive x), E, rev_involutive. reflexivity.
  Qed.

  Lemma walk_values (ok : Z -> Prop) t t' : walk t t' -> (forall v, p' v -> ok v) -> (forall s v, dget t s = Some v -> ok v) -> forall s v, dget t' s = Some v -> ok v.
  Proof.
    induction 1 as [t|t s v t1 t2 Hg Ha Hv Hc Hw IH]; intros Hp Ht; [assumption|]. apply IH; [assumption|]. intros x w E. destruct Hc as (H1 & H2 & _).
    destruct (list_eq_dec ascii_dec x s) as [->|Hn1]; [rewrite H1 in E by auto; injection E as <-; auto|]. destruct isotropic.
    - destruct (list_eq_dec ascii_dec x (rev s)) as [->|Hn2]; [rewrite H1 in E by auto; injection E as <-; auto|]. rewrite H2 in E by auto. eauto.
    - rewrite H2 in E by (auto; discriminate). eauto.
  Qed.
End Consequences.
