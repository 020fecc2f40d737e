(** * Turing machine configurations as a tape cut at the head; sweeps *)
From Verif Require Import Py PyFacts ListFacts TuringSpec.
Open Scope list_scope.
Open Scope Z_scope.

Section Zip.
  Context {Q S : Type} `{EqD Q} `{EqD S}.
  Context (table : dict Q (dict S (Q * S * Z))).

  (** the head is on the first symbol of [v] *)
  Definition zip (q : Q) (u v : list S) : conf Q S := mkConf q (Z.of_nat (length u)) (u ++ v).

  (** [k] steps lead from one configuration to the other *)
  Inductive reach : nat -> conf Q S -> conf Q S -> Prop :=
  | reach_0 c : reach 0 c c
  | reach_S k c c1 c2 : next table c = Some c1 -> reach k c1 c2 -> reach (Datatypes.S k) c c2.

  Lemma reach_one c c' : next table c = Some c' -> reach 1 c c'.
  Proof. intros E. exact (reach_S 0 c c' c' E (reach_0 c')). Qed.
  Lemma reach_trans j k c1 c2 c3 : reach j c1 c2 -> reach k c2 c3 -> reach (j + k) c1 c3.
  Proof. induction 1 as [|j c c' c'' E _ IH]; intros Hk; [exact Hk|]. cbn [plus]. exact (reach_S _ _ _ _ E (IH Hk)). Qed.
  Lemma reach_det k c c1 c2 : reach k c c1 -> reach k c c2 -> c1 = c2.
  Proof. intros H1. revert c2. induction H1 as [c|k c c' c'' E _ IH]; intros c2 H2; inversion H2; subst; [reflexivity|]. apply IH. congruence. Qed.
  Lemma reach_fixed k c : next table c = Some c -> reach k c c.
  Proof. intros E. induction k as [|k IH]; [constructor|]. exact (reach_S _ _ _ _ E IH). Qed.

  Lemma reach_split j k c c2 : reach (j + k) c c2 -> exists c1, reach j c c1 /\ reach k c1 c2.
  Proof.
    revert c. induction j as [|j IH]; intros c E; [exists c; split; [constructor|exact E]|]. cbn [plus] in E. inversion E as [|k' c' c1 c2' E1 E2]; subst.
    destruct (IH c1 E2) as (d & Hd & Hk). exists d. split; [exact (reach_S _ _ _ _ E1 Hd)|exact Hk].
  Qed.

  (** the configuration after [k] steps (the machine stands still if no entry applies) *)
  Fixpoint after (k : nat) (c : conf Q S) : conf Q S :=
    match k with O => c | Datatypes.S k => after k (match next table c with Some c' => c' | None => c end) end.
  Lemma reach_after k c c' : reach k c c' -> after k c = c'.
  Proof. induction 1 as [c|k c c1 c2 E _ IH]; [reflexivity|]. cbn [after]. rewrite E. exact IH. Qed.
  Lemma reach_upto j k c c' : (j <= k)%nat -> reach k c c' -> reach j c (after j c).
  Proof. intros Hjk E. replace k with (j + (k - j))%nat in E by lia. destruct (reach_split _ _ _ _ E) as (d & Hd & _). rewrite (reach_after _ _ _ Hd). exact Hd. Qed.
  Lemma reach_step j k c c' : (j < k)%nat -> reach k c c' -> next table (after j c) = Some (after (Datatypes.S j) c).
  Proof.
    intros Hjk E. replace k with (j + (1 + (k - j - 1)))%nat in E by lia. destruct (reach_split _ _ _ _ E) as (d & Hd & Hk). rewrite (reach_after _ _ _ Hd).
    destruct (reach_split _ _ _ _ Hk) as (d' & Hd' & _). pose proof (reach_trans _ _ _ _ _ Hd Hd') as HS. replace (j + 1)%nat with (Datatypes.S j) in HS by lia.
    rewrite (reach_after _ _ _ HS). inversion Hd' as [|? ? c1 ? E1 E2]; subst. inversion E2; subst. exact E1.
  Qed.
  (** the first [T] configurations *)
  Definition confs (T : nat) (c : conf Q S) : list (conf Q S) := map (fun k => after k c) (seq 0 T).
  Lemma confs_length T c : length (confs T c) = T.
  Proof. unfold confs. rewrite map_length, seq_length. reflexivity. Qed.
  Lemma confs_nth T c j : nth_error (confs T c) j = if (j <? T)%nat then Some (after j c) else None.
  Proof.
    unfold confs. destruct (Nat.ltb_spec j T) as [Hj|Hj].
    - rewrite nth_error_map. replace (nth_error (seq 0 T) j) with (Some j); [reflexivity|]. symmetry. rewrite (nth_error_nth' _ 0%nat) by (rewrite seq_length; exact Hj). rewrite seq_nth by exact Hj. reflexivity.
    - apply nth_error_None. rewrite map_length, seq_length. exact Hj.
  Qed.
  Lemma confs_run T k c c' : reach k c c' -> (0 < T <= Datatypes.S k)%nat -> run_from table c (confs T c).
  Proof.
    intros E HT. split; [rewrite confs_nth; destruct (Nat.ltb_spec 0 T); [reflexivity|lia]|].
    intros i a b E1 E2. rewrite confs_nth in E1, E2. destruct (Nat.ltb_spec i T) as [Hi|]; [|discriminate]. destruct (Nat.ltb_spec (i + 1) T) as [Hi1|]; [|discriminate].
    injection E1 as <-. injection E2 as <-. replace (i + 1)%nat with (Datatypes.S i) by lia. apply (reach_step i k c c'); [lia|exact E].
  Qed.

  Lemma nth_mid (u : list S) s v : nth_error (u ++ s :: v) (length u) = Some s.
  Proof. rewrite nth_error_app2, Nat.sub_diag by lia. reflexivity. Qed.
  Lemma firstn_mid (u v : list S) : firstn (length u) (u ++ v) = u.
  Proof. rewrite firstn_app, Nat.sub_diag, firstn_all. apply app_nil_r. Qed.
  Lemma skipn_mid (u : list S) s v : skipn (length u + 1) (u ++ s :: v) = v.
  Proof. rewrite skipn_app. rewrite skipn_all2 by lia. replace (length u + 1 - length u)%nat with 1%nat by lia. reflexivity. Qed.

  Lemma next_zip q u s v q' s' d m : entry table q s = Some (q', s', d) -> move d = Some m ->
    next table (zip q u (s :: v)) = Some (mkConf q' ((Z.of_nat (length u) + m) mod Z.of_nat (length (u ++ s :: v))) (u ++ s' :: v)).
  Proof. intros E1 E2. unfold next, zip. cbn [cf_q cf_p cf_tape]. rewrite Nat2Z.id, nth_mid, E1, E2, firstn_mid, skipn_mid. reflexivity. Qed.
  Lemma step_right q u s v q' s' : entry table q s = Some (q', s', 2) -> v <> [] -> next table (zip q u (s :: v)) = Some (zip q' (u ++ [s']) v).
  Proof.
    intros E Hv. rewrite (next_zip q u s v q' s' 2 1 E eq_refl). unfold zip. rewrite <- app_assoc. cbn [app]. rewrite !app_length. cbn [length]. rewrite Z.mod_small; [do 2 f_equal; lia|].
    destruct v; [congruence|]. cbn [length]. lia.
  Qed.
  Lemma step_left q u t s v q' s' : entry table q s = Some (q', s', 0) -> next table (zip q (u ++ [t]) (s :: v)) = Some (zip q' u (t :: s' :: v)).
  Proof.
    intros E. rewrite (next_zip q _ s v q' s' 0 (-1) E eq_refl). unfold zip. rewrite <- !app_assoc. cbn [app]. rewrite !app_length. cbn [length]. rewrite Z.mod_small by lia. f_equal. f_equal. lia.
  Qed.
  Lemma step_stay q u s v q' s' : entry table q s = Some (q', s', 1) -> next table (zip q u (s :: v)) = Some (zip q' u (s' :: v)).
  Proof.
    intros E. rewrite (next_zip q _ s v q' s' 1 0 E eq_refl). unfold zip. rewrite !app_length. cbn [length]. rewrite Z.mod_small by lia. f_equal. f_equal. lia.
  Qed.

  Lemma sweep_right q m : forall u v, (forall s, In s m -> entry table q s = Some (q, s, 2)) -> v <> [] -> reach (length m) (zip q u (m ++ v)) (zip q (u ++ m) v).
  Proof.
    induction m as [|s m IH]; intros u v Hm Hv; [rewrite app_nil_r; constructor|]. cbn [app length].
    apply (reach_S _ _ (zip q (u ++ [s]) (m ++ v))); [apply step_right; [apply Hm; left; reflexivity|destruct m; [exact Hv|discriminate]]|].
    replace (u ++ s :: m) with ((u ++ [s]) ++ m) by (rewrite <- app_assoc; reflexivity). apply IH; [|exact Hv]. intros; apply Hm; right; assumption.
  Qed.
  (** the head is on the last symbol of [t :: m] and goes back to [t] *)
  Lemma sweep_left q m : forall u t v, (forall s, In s m -> entry table q s = Some (q, s, 0)) ->
    forall u' s', u ++ t :: m = u' ++ [s'] -> reach (length m) (zip q u' (s' :: v)) (zip q u (t :: m ++ v)).
  Proof.
    induction m as [|s m IH] using rev_ind; intros u t v Hm u' s' E.
    - apply app_inj_tail in E. destruct E as [<- <-]. constructor.
    - replace (u ++ t :: m ++ [s]) with ((u ++ t :: m) ++ [s]) in E by (rewrite <- app_assoc; reflexivity). apply app_inj_tail in E. destruct E as [<- <-].
      rewrite app_length. cbn [length]. rewrite Nat.add_comm. cbn [plus]. rewrite <- app_assoc. cbn [app].
      destruct (exists_last (l := u ++ t :: m)) as (u2 & s2 & E2); [destruct u; discriminate|]. rewrite E2.
      apply (reach_S _ _ (zip q u2 (s2 :: s :: v))); [apply step_left; apply Hm; apply in_or_app; right; left; reflexivity|].
      apply IH; [|exact E2]. intros y Hy. apply Hm. apply in_or_app. left. exact Hy.
  Qed.
End Zip.
