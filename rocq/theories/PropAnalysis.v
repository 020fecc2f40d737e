(** * C56-C58: entropy and mutual information *)
From Coq Require Import Reals Lra Permutation Lia.
From Verif Require Import Py PyFacts ListFacts Network Evolve Utils Analysis AnalysisProofs AnalysisProofs2.
Open Scope string_scope.
Open Scope list_scope.
Open Scope R_scope.

(** ** specification *)
(** how often a symbol occurs in a string; the distinct symbols of a string, listed in any order *)
Definition occ {X} `{EqD X} (s : list X) (x : X) : nat := count_occ eqd s x.
Definition symbols_of {X} (s A : list X) : Prop := NoDup A /\ forall x, In x A <-> In x s.
(** the probability of a symbol and its contribution to the entropy *)
Definition prob {X} `{EqD X} (s : list X) (x : X) : R := INR (occ s x) / INR (length s).
Definition surprise (p : R) : R := - (p * (ln p / ln 2)).
Definition total {X} (f : X -> R) (l : list X) : R := fold_right (fun x acc => f x + acc) 0 l.

Lemma total_Rsum {X} (f : X -> R) l : total f l = Rsum (map f l).
Proof. induction l as [|x l IH]; [reflexivity|]. cbn [total fold_right map]. rewrite Rsum_cons, <- IH. reflexivity. Qed.

(** ** C56 *)
Theorem C56_formula : forall {X} `{EqD X} (s A : list X), symbols_of s A -> shannon_entropy s = total (fun x => surprise (prob s x)) A.
Proof. intros X EX s A [Hnd HA]. rewrite entropy_gain, total_Rsum, <- (entropy_over s A Hnd HA). reflexivity. Qed.

Theorem C56_bounds : forall {X} `{EqD X} (s A : list X), symbols_of s A -> s <> [] ->
  0 <= shannon_entropy s <= ln (INR (length A)) / ln 2 /\
  (shannon_entropy s = 0 <-> length A = 1%nat) /\
  (shannon_entropy s = ln (INR (length A)) / ln 2 <-> forall x y, In x s -> In y s -> occ s x = occ s y).
Proof.
  intros X EX s A [Hnd HA] Hne. split; [split; [apply entropy_nonneg|apply entropy_max; assumption]|]. split; [|apply entropy_max_iff; assumption].
  rewrite entropy_zero. destruct s as [|x0 s]; [congruence|]. split.
  - intros Hall. destruct A as [|a A]; [exfalso; apply (proj2 (HA x0)); left; reflexivity|]. destruct A as [|b A]; [reflexivity|]. exfalso. apply NoDup_cons_iff in Hnd. destruct Hnd as [Hn _]. apply Hn. left. apply Hall; apply HA; [right; left|left]; reflexivity.
  - intros Hlen x y Hx Hy. apply HA in Hx, Hy. destruct A as [|a [|b A]]; try discriminate. destruct Hx as [<-|[]], Hy as [<-|[]]. reflexivity.
Qed.

Theorem C56_empty : forall {X} `{EqD X}, shannon_entropy (@nil X) = 0.
Proof. intros. apply entropy_nil. Qed.

Theorem C56_reorder : forall {X} `{EqD X} (s s' : list X), Permutation s s' -> shannon_entropy s = shannon_entropy s'.
Proof. intros. apply entropy_perm. assumption. Qed.

Theorem C56_rename : forall {X Y} `{EqD X} `{EqD Y} (f : X -> Y) (s : list X), (forall x y, In x s -> In y s -> f x = f y -> x = y) -> shannon_entropy (map f s) = shannon_entropy s.
Proof. intros. apply entropy_map. assumption. Qed.

Lemma map_repeat' {X Y} (f : X -> Y) x n : map f (repeat x n) = repeat (f x) n.
Proof. induction n as [|n IH]; [reflexivity|]. cbn. f_equal. assumption. Qed.

(** ** C57 *)
Section C57.
  Context {X Y : Type} `{EqD X} `{EqD Y}.
  Variables (set_x : list X -> list X) (set_y : list Y -> list Y).
  Hypotheses (Hx : any_set_order set_x) (Hy : any_set_order set_y).

  (** the joint entropy is that of the string of pairs *)
  Theorem C57_joint : forall (s : list X) (t : list Y) A, length s = length t -> symbols_of (combine s t) A ->
    exists j, joint_shannon_entropy set_x set_y s t = Ok j /\ j = total (fun q => surprise (prob (combine s t) q)) A /\
      Rmax (shannon_entropy s) (shannon_entropy t) <= j <= shannon_entropy s + shannon_entropy t.
  Proof.
    intros s t A Hl HA. exists (shannon_entropy (combine s t)). split; [apply joint_is_entropy; assumption|]. split; [apply C56_formula; assumption|].
    pose proof (mutual_nonneg (combine s t)) as H3. pose proof (joint_ge (combine s t)) as H1. pose proof (joint_ge (map (fun p => (snd p, fst p)) (combine s t))) as H2.
    rewrite map_map in H2. cbn [fst] in H2. rewrite (entropy_map (fun p : X * Y => (snd p, fst p))) in H2 by (intros [? ?] [? ?] _ _ E; cbn in E; congruence). change (map (fun x : X * Y => snd x) (combine s t)) with (map snd (combine s t)) in H2. rewrite fst_combine in * by assumption. rewrite snd_combine in * by assumption. split; [apply Rmax_lub; assumption|assumption].
  Qed.

  Theorem C57_mutual : forall (s : list X) (t : list Y), length s = length t ->
    exists i, mutual_information set_x set_y s t = Ok i /\ 0 <= i <= Rmin (shannon_entropy s) (shannon_entropy t) /\
      (i = 0 <-> forall x y, (length s * occ (combine s t) (x, y) = occ s x * occ t y)%nat) /\
      (i = shannon_entropy t <-> forall x y y', In (x, y) (combine s t) -> In (x, y') (combine s t) -> y = y').
  Proof.
    intros s t Hl. unfold mutual_information. rewrite joint_is_entropy by assumption. cbn [rbind]. eexists. split; [reflexivity|].
    destruct (C57_joint s t (fromkeys (combine s t)) Hl) as (j & Ej & _ & [J1 J2]); [split; [apply fromkeys_nodup|apply fromkeys_in]|]. rewrite joint_is_entropy in Ej by assumption. assert (Ej' : shannon_entropy (combine s t) = j) by congruence. subst j. clear Ej.
    pose proof (Rmax_l (shannon_entropy s) (shannon_entropy t)). pose proof (Rmax_r (shannon_entropy s) (shannon_entropy t)). split; [split; [lra|apply Rmin_glb; lra]|]. split.
    - pose proof (mutual_zero (combine s t)) as Hz. rewrite fst_combine in Hz by assumption. rewrite snd_combine in Hz by assumption. rewrite Hz, combine_length, <- Hl, Nat.min_id. reflexivity.
    - pose proof (joint_eq (combine s t)) as He. rewrite fst_combine in He by assumption. transitivity (shannon_entropy s = shannon_entropy (combine s t)); [split; intros; lra|]. rewrite He. split.
      + intros Hf x y y' K1 K2. exact (Hf (x, y) (x, y') K1 K2 eq_refl).
      + intros Hf [x y] [x' y'] K1 K2 E. cbn [fst snd] in *. subst x'. eapply Hf; eassumption.
  Qed.

  (** strings of different lengths: a string of one symbol counts as that symbol repeated, an empty one gives 0, otherwise ValueError *)
  Theorem C57_lengths : forall (s : list X) (t : list Y), length s <> length t ->
    (s = [] \/ t = [] -> joint_shannon_entropy set_x set_y s t = Ok 0) /\
    (s <> [] -> t <> [] -> length s <> 1%nat -> length t <> 1%nat -> joint_shannon_entropy set_x set_y s t = Err ValueError) /\
    (t <> [] -> length s = 1%nat -> joint_shannon_entropy set_x set_y s t = Ok (shannon_entropy t)) /\
    (s <> [] -> length t = 1%nat -> joint_shannon_entropy set_x set_y s t = Ok (shannon_entropy s)).
  Proof.
    assert (Sx : forall l, l = [] -> set_x l = []) by (intros l ->; destruct (set_x []) as [|x l] eqn:E; [reflexivity|]; exfalso; apply (proj2 (Hx []) x); rewrite E; left; reflexivity).
    assert (Sy : forall l, l = [] -> set_y l = []) by (intros l ->; destruct (set_y []) as [|x l] eqn:E; [reflexivity|]; exfalso; apply (proj2 (Hy []) x); rewrite E; left; reflexivity).
    assert (Hone : forall (Z : Type) (f : list Z -> list Z), any_set_order f -> forall a n, f (repeat a (S n)) = [a]).
    { clear. intros Z f Hf a n. destruct (Hf (repeat a (S n))) as [Hn Hi]. destruct (f (repeat a (S n))) as [|b l]; [exfalso; apply (proj2 (Hi a)); left; reflexivity|]. assert (b = a) by (eapply repeat_spec, Hi; left; reflexivity). subst b. destruct l as [|c l]; [reflexivity|]. exfalso. assert (c = a) by (eapply repeat_spec, Hi; right; left; reflexivity). subst c. apply NoDup_cons_iff in Hn. destruct Hn as [Hn _]. apply Hn. left. reflexivity. }
    assert (Hrep : forall (P : list bool) b, length P <> 1%nat -> logical_and [b] P = logical_and (repeat b (length P)) P /\ logical_and P [b] = logical_and P (repeat b (length P))).
    { clear. intros P b HP. assert (E1 : map (andb b) P = map (fun p => fst p && snd p) (combine (repeat b (length P)) P)) by (clear; induction P as [|e P IH]; [reflexivity|]; cbn; f_equal; assumption).
      assert (E2 : map (fun x => x && b) P = map (fun p => fst p && snd p) (combine P (repeat b (length P)))) by (clear; induction P as [|e P IH]; [reflexivity|]; cbn; f_equal; assumption).
      unfold logical_and. rewrite repeat_length, Nat.eqb_refl, <- E1, <- E2. destruct P as [|c [|d P]]; [split; reflexivity|exfalso; apply HP; reflexivity|split; reflexivity]. }
    intros s t Hl. split; [|split; [|split]].
    - intros [-> | ->]; unfold joint_shannon_entropy.
      + rewrite Sx by reflexivity. reflexivity.
      + rewrite (Sy []) by reflexivity. assert (E : forall l acc, rfold (fun acc x => rfold (fun acc y => m <- logical_and (np_eq s x) (np_eq (@nil Y) y) ;; Ok (acc ++ [np_mean_bool m])) [] acc) l acc = Ok acc) by (induction l; intros acc; [reflexivity|cbn; auto]). rewrite E. reflexivity.
    - intros Hs Ht Hs1 Ht1. unfold joint_shannon_entropy. destruct (set_x s) as [|x l] eqn:Ex; [destruct s as [|x s]; [congruence|]; exfalso; assert (Hi : In x (set_x (x :: s))) by (apply (proj2 (Hx _)); left; reflexivity); rewrite Ex in Hi; destruct Hi|].
      destruct (set_y t) as [|y l'] eqn:Ey; [destruct t as [|y t]; [congruence|]; exfalso; assert (Hi : In y (set_y (y :: t))) by (apply (proj2 (Hy _)); left; reflexivity); rewrite Ey in Hi; destruct Hi|]. cbn [rfold].
      assert (E : logical_and (np_eq s x) (np_eq t y) = Err ValueError); [|rewrite E; reflexivity]. unfold logical_and. rewrite (proj2 (Nat.eqb_neq _ _)) by (unfold np_eq; rewrite !map_length; assumption). destruct s as [|a [|a' s]]; try congruence; [exfalso; apply Hs1; reflexivity|]. destruct t as [|b [|b' t]]; try congruence; [exfalso; apply Ht1; reflexivity|]. reflexivity.
    - intros Ht Hs. destruct s as [|a [|]]; try discriminate. cbn [length] in Hl. assert (E : joint_shannon_entropy set_x set_y [a] t = joint_shannon_entropy set_x set_y (repeat a (length t)) t).
      { unfold joint_shannon_entropy. destruct (length t) as [|n] eqn:En; [destruct t; [congruence|discriminate]|]. rewrite (Hone X set_x Hx a n). pose proof (Hone X set_x Hx a 0%nat) as E1. cbn [repeat] in E1. rewrite E1. cbn [rfold].
        assert (E : forall l acc, rfold (fun acc y => m <- logical_and (np_eq [a] a) (np_eq t y) ;; Ok (acc ++ [np_mean_bool m])) l acc = rfold (fun acc y => m <- logical_and (np_eq (repeat a (S n)) a) (np_eq t y) ;; Ok (acc ++ [np_mean_bool m])) l acc).
        { induction l as [|y l IH]; intros acc; [reflexivity|]. cbn [rfold]. assert (El : logical_and (np_eq [a] a) (np_eq t y) = logical_and (np_eq (repeat a (S n)) a) (np_eq t y)).
          { unfold np_eq at 1 3. rewrite map_repeat'. cbn [map]. rewrite (proj1 (Hrep (np_eq t y) _ ltac:(unfold np_eq; rewrite map_length; lia))). unfold np_eq at 1. rewrite map_length, En. reflexivity. }
          rewrite El. destruct (logical_and (np_eq (repeat a (S n)) a) (np_eq t y)); cbn [rbind]; [apply IH|reflexivity]. }
        rewrite E. reflexivity. }
      rewrite E, joint_is_entropy by (assumption || apply repeat_length). f_equal. pose proof (joint_eq (map (fun p => (snd p, fst p)) (combine (repeat a (length t)) t))) as Hj. rewrite map_map in Hj. cbn [fst] in Hj. change (map (fun x : X * Y => snd x) (combine (repeat a (length t)) t)) with (map snd (combine (repeat a (length t)) t)) in Hj. rewrite snd_combine in Hj by apply repeat_length. rewrite (entropy_map (fun p : X * Y => (snd p, fst p))) in Hj by (intros [? ?] [? ?] _ _ Eq; cbn in Eq; congruence).
      symmetry. apply Hj. intros p q Hp Hq _. apply in_map_iff in Hp, Hq. destruct Hp as ([x y] & <- & Hp), Hq as ([x' y'] & <- & Hq). cbn. apply in_combine_l in Hp, Hq. apply repeat_spec in Hp, Hq. congruence.
    - intros Hs Ht. destruct t as [|b [|]]; try discriminate. cbn [length] in Hl. assert (E : joint_shannon_entropy set_x set_y s [b] = joint_shannon_entropy set_x set_y s (repeat b (length s))).
      { unfold joint_shannon_entropy. destruct (length s) as [|n] eqn:En; [destruct s; [congruence|discriminate]|]. rewrite (Hone Y set_y Hy b n). pose proof (Hone Y set_y Hy b 0%nat) as E1. cbn [repeat] in E1. rewrite E1.
        assert (E : forall l acc, rfold (fun acc x => rfold (fun acc y => m <- logical_and (np_eq s x) (np_eq [b] y) ;; Ok (acc ++ [np_mean_bool m])) [b] acc) l acc = rfold (fun acc x => rfold (fun acc y => m <- logical_and (np_eq s x) (np_eq (repeat b (S n)) y) ;; Ok (acc ++ [np_mean_bool m])) [b] acc) l acc).
        { induction l as [|x l IH]; intros acc; [reflexivity|]. cbn [rfold]. assert (El : logical_and (np_eq s x) (np_eq [b] b) = logical_and (np_eq s x) (np_eq (repeat b (S n)) b)).
          { unfold np_eq at 2 4. rewrite map_repeat'. cbn [map]. rewrite (proj2 (Hrep (np_eq s x) _ ltac:(unfold np_eq; rewrite map_length; lia))). unfold np_eq at 2. rewrite map_length, En. reflexivity. }
          rewrite El. destruct (logical_and (np_eq s x) (np_eq (repeat b (S n)) b)); cbn [rbind]; [apply IH|reflexivity]. }
        rewrite E. reflexivity. }
      rewrite E, joint_is_entropy by (assumption || (symmetry; apply repeat_length)). f_equal. pose proof (joint_eq (combine s (repeat b (length s)))) as Hj. rewrite fst_combine in Hj by (symmetry; apply repeat_length).
      symmetry. apply Hj. intros [x y] [x' y'] Hp Hq _. apply in_combine_r in Hp, Hq. apply repeat_spec in Hp, Hq. cbn. congruence.
  Qed.
End C57.

Theorem C57_symmetric : forall {X Y} `{EqD X} `{EqD Y} (set_x : list X -> list X) (set_y : list Y -> list Y) s t, any_set_order set_x -> any_set_order set_y -> length s = length t ->
  joint_shannon_entropy set_x set_y s t = joint_shannon_entropy set_y set_x t s /\ mutual_information set_x set_y s t = mutual_information set_y set_x t s.
Proof.
  intros X Y EX EY set_x set_y s t Hx Hy Hl. assert (E : joint_shannon_entropy set_x set_y s t = joint_shannon_entropy set_y set_x t s).
  { rewrite !joint_is_entropy by (assumption || (symmetry; assumption)). f_equal. rewrite <- (entropy_map (fun p => (snd p, fst p)) (combine s t)) by (intros [? ?] [? ?] _ _ Eq; cbn in Eq; congruence). f_equal.
    clear - Hl. revert t Hl. induction s as [|a s IH]; intros [|b t] Hl; try discriminate; [reflexivity|]. cbn. f_equal. apply IH. injection Hl. auto. }
  split; [assumption|]. unfold mutual_information. rewrite E. destruct (joint_shannon_entropy set_y set_x t s); [|reflexivity]. cbn [rbind]. f_equal. lra.
Qed.

Theorem C57_self : forall {X} `{EqD X} (set_x set_y : list X -> list X) s, any_set_order set_x -> any_set_order set_y -> mutual_information set_x set_y s s = Ok (shannon_entropy s).
Proof.
  intros X EX set_x set_y s Hx Hy. unfold mutual_information. rewrite joint_is_entropy by (assumption || reflexivity). cbn [rbind]. f_equal.
  assert (E : combine s s = map (fun x => (x, x)) s) by (induction s as [|x s IH]; [reflexivity|cbn; f_equal; assumption]). rewrite E, entropy_map by (intros; congruence). lra.
Qed.

(** ** C58, C70: averages over the nodes *)
Section Averages.
  Context {L V A BA BN X : Type} `{EqD L} `{EqD X}.
  Variables (W : env L V A BA BN) (leb : L -> L -> bool) (str : A -> list X) (set_x : list X -> list X).

  (** at least one timestep, m nodes in each *)
  Definition table (rows : list (list A)) (m : nat) : Prop := rows <> [] /\ Forall (fun r => length r = m) rows.
  (** the string of a node's states over time *)
  Definition history (rows : list (list A)) (i : nat) : list X := flat_map (fun r => match nth_error r i with Some a => str a | None => [] end) rows.
  Definition mean (f : nat -> R) (m : nat) : R := total f (seq 0 m) / INR m.

  Lemma history_ok rows m i : table rows m -> (i < m)%nat -> node_states_over_time str rows i = Ok (history rows i).
  Proof.
    intros [_ Hr] Hi. unfold node_states_over_time. assert (E : exists col, rmap (fun y => of_opt IndexError (nth_error y i)) rows = Ok col /\ flat_map str col = history rows i); [|destruct E as (col & -> & <-); reflexivity].
    induction Hr as [|r rows Hl _ IH]; [exists []; split; reflexivity|]. destruct IH as (col & E & Ec). destruct (nth_error r i) as [a|] eqn:Ea; [|apply nth_error_None in Ea; lia]. exists (a :: col). cbn [rmap]. rewrite Ea. cbn [of_opt rbind]. rewrite E. split; [reflexivity|]. cbn [flat_map]. unfold history. cbn [flat_map]. rewrite Ea. f_equal. exact Ec.
  Qed.
  Lemma rmap_all {B C} (f : B -> res C) (g : B -> C) l : (forall x, In x l -> f x = Ok (g x)) -> rmap f l = Ok (map g l).
  Proof. induction l as [|x l IH]; intros Hf; [reflexivity|]. cbn [rmap map]. rewrite (Hf x (or_introl eq_refl)). cbn [rbind]. rewrite IH by (intros y Hy; apply Hf; right; assumption). reflexivity. Qed.
  Lemma np_mean_mean g m : (0 < m)%nat -> np_mean (map g (seq 0 m)) = Some (mean g m).
  Proof. intros Hm. unfold mean. rewrite total_Rsum. destruct m as [|m]; [lia|]. unfold np_mean. rewrite map_length, seq_length. reflexivity. Qed.
  Lemma row0_of rows m : table rows m -> exists r, nth_error rows 0 = Some r /\ length r = m.
  Proof. intros [Hne Hr]. destruct rows as [|r rows]; [congruence|]. inversion Hr; subst. exists r. split; [reflexivity|auto]. Qed.
  Lemma mean_bounds g m lo hi : (0 < m)%nat -> (forall i, (i < m)%nat -> lo <= g i <= hi) -> lo <= mean g m <= hi.
  Proof.
    intros Hm Hg. unfold mean. rewrite total_Rsum. assert (Hp : 0 < INR m) by (apply lt_0_INR; lia). pose proof (Rsum_le (fun _ => lo) g (seq 0 m)) as H1. pose proof (Rsum_le g (fun _ => hi) (seq 0 m)) as H2. rewrite Rsum_const, seq_length in H1, H2.
    assert (Hin : forall i, In i (seq 0 m) -> (i < m)%nat) by (intros i Hi; apply in_seq in Hi; lia). specialize (H1 (fun i Hi => proj1 (Hg i (Hin i Hi)))). specialize (H2 (fun i Hi => proj2 (Hg i (Hin i Hi)))).
    split; apply (Rmult_le_reg_r (INR m)); try assumption; unfold Rdiv; rewrite Rmult_assoc, Rinv_l, Rmult_1_r by lra; lra.
  Qed.
  Lemma mean_zero g m : (0 < m)%nat -> (forall i, (i < m)%nat -> 0 <= g i) -> mean g m = 0 <-> forall i, (i < m)%nat -> g i = 0.
  Proof.
    intros Hm Hg. unfold mean. rewrite total_Rsum. assert (Hp : 0 < INR m) by (apply lt_0_INR; lia). split.
    - intros E i Hi. assert (E0 : Rsum (map g (seq 0 m)) = 0). { apply (Rmult_eq_compat_r (INR m)) in E. unfold Rdiv in E. rewrite Rmult_assoc, Rinv_l, Rmult_1_r in E; lra. } apply (Rsum_zero g (seq 0 m)); [intros j Hj; apply in_seq in Hj; apply Hg; lia|assumption|apply in_seq; lia].
    - intros E. rewrite (Rsum_ext g (fun _ => 0)); [rewrite Rsum_const; unfold Rdiv; lra|]. intros i Hi. apply in_seq in Hi. apply E. lia.
  Qed.

  (** raises exactly when the temporal distance is not between 0 and the number of NODES; otherwise it is the mean over the nodes of the
      mutual information between the node's string and itself shifted by the distance *)
  Theorem C58_guard : forall rows m d, any_set_order set_x -> table rows m ->
    (~ (0 < d < Z.of_nat m)%Z -> average_mutual_information W leb str set_x (inr rows) d = Err (Raise "the temporal distance must be greater than 0 and less than the number of time steps")) /\
    ((0 < d < Z.of_nat m)%Z -> exists g, average_mutual_information W leb str set_x (inr rows) d = Ok (Some (mean g m)) /\
      (forall i, (i < m)%nat -> let s := history rows i in mutual_information set_x set_x (firstn (length s - Z.to_nat d) s) (skipn (Z.to_nat d) s) = Ok (g i) /\ 0 <= g i) /\
      0 <= mean g m).
  Proof.
    intros rows m d Hx Ht. destruct (row0_of rows m Ht) as (r & Er & Hr). unfold average_mutual_information, activities_of. destruct rows as [|r0 rows0] eqn:Erows; [destruct Ht; congruence|]. rewrite <- Erows in *. cbn [rbind]. rewrite Er. cbn [of_opt rbind]. rewrite Hr. split.
    - intros Hd. destruct ((0 <? d)%Z && (d <? Z.of_nat m)%Z) eqn:E; [|reflexivity]. exfalso. apply Hd. apply andb_true_iff in E. destruct E as [E1 E2]. apply Z.ltb_lt in E1, E2. lia.
    - intros Hd. replace ((0 <? d)%Z && (d <? Z.of_nat m)%Z) with true by (symmetry; apply andb_true_iff; split; apply Z.ltb_lt; lia). cbn [negb].
      set (g := fun i => let s := history rows i in shannon_entropy (firstn (length s - Z.to_nat d) s) + shannon_entropy (skipn (Z.to_nat d) s) - shannon_entropy (combine (firstn (length s - Z.to_nat d) s) (skipn (Z.to_nat d) s))).
      assert (Hg : forall i, let s := history rows i in mutual_information set_x set_x (firstn (length s - Z.to_nat d) s) (skipn (Z.to_nat d) s) = Ok (g i) /\ 0 <= g i).
      { intros i s. assert (Hl : length (firstn (length s - Z.to_nat d) s) = length (skipn (Z.to_nat d) s)) by (rewrite firstn_length, skipn_length; lia). destruct (C57_mutual set_x set_x Hx Hx _ _ Hl) as (j & Ej & [Hj _] & _). assert (j = g i); [|subst j; split; assumption]. unfold mutual_information in Ej. rewrite joint_is_entropy in Ej by assumption. cbn [rbind] in Ej. injection Ej as <-. reflexivity. }
      exists g. rewrite (rmap_all _ g).
      + cbn [rbind]. rewrite np_mean_mean by lia. split; [reflexivity|]. split; [intros i _; apply Hg|]. unfold mean. rewrite total_Rsum. apply Rmult_le_pos; [apply Rsum_nonneg; intros i _; apply Hg|]. apply Rlt_le, Rinv_0_lt_compat, lt_0_INR. lia.
      + intros i Hi. apply in_seq in Hi. rewrite (history_ok rows m) by (assumption || lia). cbn [rbind]. apply Hg.
  Qed.

  (** a distance at or beyond the number of timesteps is not refused (one symbol per state): the answer is then 0 *)
  Theorem C58_too_far : forall rows m d, any_set_order set_x -> table rows m -> (forall a, length (str a) = 1%nat) -> (0 < d < Z.of_nat m)%Z -> (Z.of_nat (length rows) <= d)%Z ->
    average_mutual_information W leb str set_x (inr rows) d = Ok (Some 0).
  Proof.
    intros rows m d Hx Ht Hs Hd Hle. destruct (C58_guard rows m d Hx Ht) as [_ Hg]. destruct (Hg Hd) as (g & E & Hgi & _). rewrite E. do 2 f_equal. apply mean_zero; [lia|intros i Hi; apply Hgi, Hi|]. intros i Hi. destruct (Hgi i Hi) as [Eg _]. cbn zeta in Eg.
    assert (Hlen : (length (history rows i) <= length rows)%nat). { clear - Hs. unfold history. induction rows as [|r rows IH]; [cbn; lia|]. cbn [flat_map length]. rewrite app_length. destruct (nth_error r i) as [a|]; [rewrite Hs|cbn [length]]; lia. }
    replace (length (history rows i) - Z.to_nat d)%nat with 0%nat in Eg by lia. rewrite skipn_all2 in Eg by lia. cbn [firstn] in Eg. unfold mutual_information in Eg. rewrite joint_is_entropy in Eg by (assumption || reflexivity). cbn [rbind combine] in Eg. rewrite !entropy_nil in Eg. injection Eg as <-. lra.
  Qed.

  (** nothing recorded *)
  Theorem C58_empty : forall d, average_mutual_information W leb str set_x (inr []) d = Err (Raise "there are no activities") /\ average_mutual_information W leb str set_x (inl []) d = Err (Raise "there are no activities") /\
    average_node_entropy W leb str (inr []) = Err (Raise "there are no activities") /\ average_node_entropy W leb str (inl []) = Err (Raise "there are no activities").
  Proof. intros d. repeat split; reflexivity. Qed.

  (** a trajectory is treated as the rows of its activities; a trajectory without activities raises IndexError *)
  Theorem C58_trajectory : forall traj rows d, traj <> [] -> get_activities_over_time_as_list W leb traj = Ok rows ->
    (rows <> [] -> average_mutual_information W leb str set_x (inl traj) d = average_mutual_information W leb str set_x (inr rows) d /\ average_node_entropy W leb str (inl traj) = average_node_entropy W leb str (inr rows)) /\
    (rows = [] -> average_mutual_information W leb str set_x (inl traj) d = Err IndexError /\ average_node_entropy W leb str (inl traj) = Err IndexError).
  Proof.
    intros traj rows d Hne E. unfold average_mutual_information, average_node_entropy, activities_of. destruct traj as [|st traj]; [congruence|]. rewrite E. split; [intros Hr; destruct rows; [congruence|split; reflexivity]|intros ->; split; reflexivity].
  Qed.

  Theorem C70_average_entropy : forall rows m symbols, table rows m -> (0 < m)%nat -> NoDup symbols -> (forall i x, In x (history rows i) -> In x symbols) ->
    exists v, average_node_entropy W leb str (inr rows) = Ok (Some v) /\ v = mean (fun i => shannon_entropy (history rows i)) m /\
      0 <= v /\ (symbols <> [] -> v <= ln (INR (length symbols)) / ln 2) /\
      (v = 0 <-> forall i x y, (i < m)%nat -> In x (history rows i) -> In y (history rows i) -> x = y).
  Proof.
    intros rows m symbols Ht Hm Hnd Hsym. destruct (row0_of rows m Ht) as (r & Er & Hr). exists (mean (fun i => shannon_entropy (history rows i)) m). split.
    - unfold average_node_entropy, activities_of. destruct rows as [|r0 rows0] eqn:Erows; [destruct Ht; congruence|]. rewrite <- Erows in *. cbn [rbind]. rewrite Er. cbn [of_opt rbind]. rewrite Hr.
      rewrite (rmap_all _ (fun i => shannon_entropy (history rows i))); [cbn [rbind]; rewrite np_mean_mean by assumption; reflexivity|]. intros i Hi. apply in_seq in Hi. rewrite (history_ok rows m) by (assumption || lia). reflexivity.
    - split; [reflexivity|]. split; [|split].
      + unfold mean. rewrite total_Rsum. apply Rmult_le_pos; [apply Rsum_nonneg; intros i _; apply entropy_nonneg|]. apply Rlt_le, Rinv_0_lt_compat, lt_0_INR. lia.
      + intros Hne. assert (Hk : 1 <= INR (length symbols)) by (replace 1 with (INR 1) by reflexivity; apply le_INR; destruct symbols; [congruence|cbn; lia]). pose proof ln2_pos as Hl. eapply (mean_bounds _ m 0); [assumption|]. intros i Hi. split; [apply entropy_nonneg|].
        destruct (history rows i) as [|x0 s0] eqn:Es.
        * rewrite entropy_nil. apply Rmult_le_pos; [|apply Rlt_le, Rinv_0_lt_compat; assumption]. destruct Hk as [Hk|Hk]; [rewrite <- ln_1; apply Rlt_le, ln_increasing; lra|rewrite <- Hk, ln_1; lra].
        * rewrite <- Es. eapply Rle_trans; [apply (entropy_max (history rows i) (fromkeys (history rows i))); [congruence|apply fromkeys_nodup|apply fromkeys_in]|]. unfold log2. apply Rmult_le_compat_r; [apply Rlt_le, Rinv_0_lt_compat; assumption|].
          assert (Hle : (length (fromkeys (history rows i)) <= length symbols)%nat) by (apply NoDup_incl_length; [apply fromkeys_nodup|]; intros x Hx; apply (proj1 (fromkeys_in _ _)) in Hx; eapply Hsym, Hx). apply le_INR in Hle.
          assert (Hp : 0 < INR (length (fromkeys (history rows i)))) by (apply (len_pos _ x0), fromkeys_in; rewrite Es; left; reflexivity). destruct Hle as [Hle|Hle]; [apply Rlt_le, ln_increasing; assumption|rewrite Hle; apply Rle_refl].
      + rewrite mean_zero; [|assumption|intros; apply entropy_nonneg]. split.
        * intros E i x y Hi Hx Hy. exact (proj1 (entropy_zero _) (E i Hi) x y Hx Hy).
        * intros E i Hi. apply entropy_zero. intros x y Hx Hy. exact (E i x y Hi Hx Hy).
  Qed.

  (** no nodes: the mean of nothing is nan; a later row that is too short raises IndexError *)
  Theorem C70_boundary : (forall rows, table rows 0 -> average_node_entropy W leb str (inr rows) = Ok None) /\
    (forall r rows r', In r' rows -> (length r' < length r)%nat -> average_node_entropy W leb str (inr (r :: rows)) = Err IndexError).
  Proof.
    split.
    - intros rows Ht. destruct (row0_of rows 0 Ht) as (r & Er & Hr). unfold average_node_entropy, activities_of. destruct rows as [|r0 rows]; [discriminate|]. cbn [rbind]. rewrite Er. cbn [of_opt rbind]. rewrite Hr. reflexivity.
    - intros r rows r' Hin Hlt. unfold average_node_entropy, activities_of. cbn [rbind nth_error of_opt].
      set (f := fun i => s <- node_states_over_time str (r :: rows) i ;; Ok (shannon_entropy s)).
      assert (Hone : forall i l, (exists v, rmap (fun y : list A => of_opt IndexError (nth_error y i)) l = Ok v) \/ rmap (fun y : list A => of_opt IndexError (nth_error y i)) l = Err IndexError).
      { intros i. induction l as [|y l IH]; [left; eexists; reflexivity|]. cbn [rmap]. destruct (nth_error y i) as [a|]; cbn [of_opt rbind]; [|right; reflexivity]. destruct IH as [[v ->]| ->]; [left; eexists; reflexivity|right; reflexivity]. }
      assert (Hf : forall i, (exists v, f i = Ok v) \/ f i = Err IndexError) by (intros i; unfold f, node_states_over_time; destruct (Hone i (r :: rows)) as [[v ->]| ->]; [left; eexists; reflexivity|right; reflexivity]).
      assert (Hbad : f (length r') = Err IndexError).
      { destruct (Hf (length r')) as [[v Ev]|]; [|assumption]. exfalso. unfold f, node_states_over_time in Ev. destruct (Hone (length r') (r :: rows)) as [[c Ec]|Ec]; rewrite Ec in Ev; [|discriminate]. clear Ev v. assert (Hi : In r' (r :: rows)) by (right; assumption). revert c Ec Hi. generalize (r :: rows). induction l as [|y l IH]; intros c Ec Hi; [destruct Hi|]. cbn [rmap] in Ec. destruct (nth_error y (length r')) as [a|] eqn:Ea; [|discriminate]. cbn [of_opt rbind] in Ec. destruct (rmap _ l) as [c'|] eqn:El; [|discriminate]. destruct Hi as [->|Hi]; [|eapply IH; [reflexivity|assumption]]. assert (length r' < length r')%nat by (apply nth_error_Some; congruence). lia. }
      assert (Hall : forall l, In (length r') l -> rmap f l = Err IndexError).
      { induction l as [|i l IH]; intros Hi; [destruct Hi|]. cbn [rmap]. destruct (Hf i) as [[v Ev]|Ev]; rewrite Ev; cbn [rbind]; [|reflexivity]. destruct Hi as [->|Hi]; [congruence|]. rewrite (IH Hi). reflexivity. }
      rewrite (Hall (seq 0 (length r))); [reflexivity|]. apply in_seq. lia.
  Qed.
End Averages.

(** ** Examples and the documented guard *)
Definition zset : list Z -> list Z := nodup Z.eq_dec.
Lemma zset_ok : any_set_order zset.
Proof. intros l. split; [apply NoDup_nodup|intros x; apply nodup_In]. Qed.
Lemma log2_2 : ln (INR 2) / ln 2 = 1.
Proof. pose proof ln2_pos. cbn [INR]. replace (1 + 1) with 2 by lra. apply Rinv_r. lra. Qed.
Ltac dec_nodup := repeat constructor; cbn; intuition discriminate.

Example C56_nonvacuous : symbols_of [0; 1; 0; 1]%Z [1; 0]%Z /\ shannon_entropy [0; 1; 0; 1]%Z = 1 /\ symbols_of [0; 0; 1]%Z [0; 1]%Z /\ 0 < shannon_entropy [0; 0; 1]%Z < 1 /\
  Permutation [0; 0; 1]%Z [0; 1; 0]%Z /\ shannon_entropy [7; 7; 7]%Z = 0.
Proof.
  assert (S1 : symbols_of [0; 1; 0; 1]%Z [1; 0]%Z) by (split; [dec_nodup|intros x; cbn; tauto]). assert (S2 : symbols_of [0; 0; 1]%Z [0; 1]%Z) by (split; [dec_nodup|intros x; cbn; tauto]). assert (S3 : symbols_of [7; 7; 7]%Z [7]%Z) by (split; [dec_nodup|intros x; cbn; tauto]).
  split; [exact S1|]. split; [rewrite <- log2_2; apply (C56_bounds _ _ S1); [discriminate|]; intros x y; cbn; intros [<-|[<-|[<-|[<-|[]]]]] [<-|[<-|[<-|[<-|[]]]]]; reflexivity|]. split; [exact S2|]. destruct (C56_bounds _ _ S2) as ([B1 B2] & B3 & B4); [discriminate|]. cbn [length] in *. rewrite log2_2 in *. split.
  - split.
    + destruct B1 as [|B1]; [assumption|]. exfalso. symmetry in B1. apply B3 in B1. discriminate.
    + destruct B2 as [|B2]; [assumption|]. exfalso. pose proof (proj1 B4 B2 0%Z 1%Z (or_introl eq_refl) (or_intror (or_intror (or_introl eq_refl)))) as Hc. vm_compute in Hc. discriminate.
  - split; [constructor; apply perm_swap|]. apply (C56_bounds _ _ S3); [discriminate|reflexivity].
Qed.

Example C57_nonvacuous : length [0; 0; 1; 1]%Z = length [0; 1; 0; 1]%Z /\ mutual_information zset zset [0; 0; 1; 1]%Z [0; 1; 0; 1]%Z = Ok 0 /\ mutual_information zset zset [0; 0; 1; 1]%Z [0; 0; 1; 1]%Z = Ok 1.
Proof.
  split; [reflexivity|]. split.
  - destruct (C57_mutual zset zset zset_ok zset_ok [0; 0; 1; 1]%Z [0; 1; 0; 1]%Z eq_refl) as (i & Ei & _ & Hz & _). rewrite Ei. f_equal. apply Hz. intros x y. unfold occ. cbn [combine count_occ length].
    repeat (match goal with |- context [eqd ?a ?b] => destruct (eqd a b) as [?|?]; try congruence end); reflexivity.
  - rewrite C57_self by apply zset_ok. f_equal. rewrite <- log2_2. assert (S1 : symbols_of [0; 0; 1; 1]%Z [0; 1]%Z) by (split; [dec_nodup|intros x; cbn; tauto]). apply (C56_bounds _ _ S1); [discriminate|]. intros x y; cbn; intros [<-|[<-|[<-|[<-|[]]]]] [<-|[<-|[<-|[<-|[]]]]]; reflexivity.
Qed.

(** the documentation asks for a distance less than the number of timesteps: one such distance is refused, and one that is not is accepted *)
Definition Wa : env Z Z Z unit unit := mkEnv Z.of_nat Some (fun a => a) (fun _ => Err Unmodelled) (fun _ => Err Unmodelled) (fun _ => Err Unmodelled) (fun _ => Err Unmodelled).
Definition digit (a : Z) : list Z := [a].
Theorem C58_documented_guard_refuted :
  (exists rows m d, table rows m /\ (0 < d < Z.of_nat (length rows))%Z /\ is_ok (average_mutual_information Wa Z.leb digit zset (inr rows) d) = false) /\
  (exists rows m d, table rows m /\ ~ (0 < d < Z.of_nat (length rows))%Z /\ average_mutual_information Wa Z.leb digit zset (inr rows) d = Ok (Some 0)).
Proof.
  split.
  - exists [[0; 1]; [1; 1]; [0; 0]]%Z, 2%nat, 2%Z. assert (Ht : table [[0; 1]; [1; 1]; [0; 0]]%Z 2) by (split; [discriminate|repeat constructor]). split; [exact Ht|]. split; [cbn; lia|]. destruct (C58_guard Wa Z.leb digit zset _ _ 2%Z zset_ok Ht) as [E _]. rewrite E by lia. reflexivity.
  - exists [[0; 1; 1]; [1; 1; 0]]%Z, 3%nat, 2%Z. assert (Ht : table [[0; 1; 1]; [1; 1; 0]]%Z 3) by (split; [discriminate|repeat constructor]). split; [exact Ht|]. split; [cbn; lia|]. apply (C58_too_far Wa Z.leb digit zset _ 3); [apply zset_ok|exact Ht|reflexivity|lia|cbn; lia].
Qed.

Example C58_C70_nonvacuous : table [[0; 1]; [1; 1]; [0; 1]; [1; 1]]%Z 2 /\ (0 < 1 < Z.of_nat 2)%Z /\ history digit [[0; 1]; [1; 1]; [0; 1]; [1; 1]]%Z 0 = [0; 1; 0; 1]%Z /\
  average_node_entropy Wa Z.leb digit (inr [[0; 1]; [1; 1]; [0; 1]; [1; 1]]%Z) = Ok (Some (1 / 2)).
Proof.
  assert (Ht : table [[0; 1]; [1; 1]; [0; 1]; [1; 1]]%Z 2) by (split; [discriminate|repeat constructor]). split; [exact Ht|]. split; [lia|]. split; [reflexivity|].
  destruct (C70_average_entropy Wa Z.leb digit _ 2 [0; 1]%Z Ht) as (v & Ev & Em & _); [lia|dec_nodup| |].
  - intros [|[|i]] x; cbn; [tauto|tauto|]. destruct i; cbn; tauto.
  - rewrite Ev. do 2 f_equal. rewrite Em. unfold mean, total. cbn [seq fold_right].
    change (history digit [[0; 1]; [1; 1]; [0; 1]; [1; 1]]%Z 0) with [0; 1; 0; 1]%Z. change (history digit [[0; 1]; [1; 1]; [0; 1]; [1; 1]]%Z 1) with [1; 1; 1; 1]%Z. rewrite (proj1 (proj2 C56_nonvacuous)).
    assert (S4 : symbols_of [1; 1; 1; 1]%Z [1]%Z) by (split; [dec_nodup|intros x; cbn; tauto]). rewrite (proj2 (proj1 (proj2 (C56_bounds _ _ S4 ltac:(discriminate)))) eq_refl). cbn [INR]. lra.
Qed.

Print Assumptions C56_formula.
Print Assumptions C56_bounds.
Print Assumptions C56_empty.
Print Assumptions C56_reorder.
Print Assumptions C56_rename.
Print Assumptions C57_joint.
Print Assumptions C57_mutual.
Print Assumptions C57_lengths.
Print Assumptions C57_symmetric.
Print Assumptions C57_self.
Print Assumptions C58_guard.
Print Assumptions C58_too_far.
Print Assumptions C58_empty.
Print Assumptions C58_trajectory.
Print Assumptions C58_documented_guard_refuted.
Print Assumptions C70_average_entropy.
Print Assumptions C70_boundary.
