(** * Entropies as sums over the positions of a string *)
From Coq Require Import Reals Lra Permutation.
From Verif Require Import Py PyFacts ListFacts Network Evolve Utils Analysis.
Open Scope R_scope.

(** ** sums *)
Lemma Rsum_cons x l : Rsum (x :: l) = x + Rsum l.
Proof. reflexivity. Qed.
Lemma Rsum_nil : Rsum [] = 0.
Proof. reflexivity. Qed.
Lemma Rsum_app l l' : Rsum (l ++ l') = Rsum l + Rsum l'.
Proof. induction l as [|x l IH]; [unfold Rsum; cbn; lra|]. cbn [map app]. rewrite !Rsum_cons, IH. lra. Qed.
Lemma Rsum_perm l l' : Permutation l l' -> Rsum l = Rsum l'.
Proof. induction 1; rewrite ?Rsum_cons; lra. Qed.
Lemma Rsum_ext {X} (f g : X -> R) l : (forall x, In x l -> f x = g x) -> Rsum (map f l) = Rsum (map g l).
Proof. induction l as [|x l IH]; intros Hf; [reflexivity|]. cbn. rewrite (Hf x (or_introl eq_refl)). f_equal. apply IH. intros y Hy. apply Hf. right. assumption. Qed.
Lemma Rsum_plus {X} (f g : X -> R) l : Rsum (map (fun x => f x + g x) l) = Rsum (map f l) + Rsum (map g l).
Proof. induction l as [|x l IH]; [unfold Rsum; cbn; lra|]. cbn [map app]. rewrite !Rsum_cons, IH. lra. Qed.
Lemma Rsum_scale {X} (f : X -> R) k l : Rsum (map (fun x => k * f x) l) = k * Rsum (map f l).
Proof. induction l as [|x l IH]; [unfold Rsum; cbn; lra|]. cbn [map app]. rewrite !Rsum_cons, IH. lra. Qed.
Lemma Rsum_opp {X} (f : X -> R) l : Rsum (map (fun x => - f x) l) = - Rsum (map f l).
Proof. induction l as [|x l IH]; [unfold Rsum; cbn; lra|]. cbn [map app]. rewrite !Rsum_cons, IH. lra. Qed.
Lemma Rsum_const {X} k (l : list X) : Rsum (map (fun _ => k) l) = INR (length l) * k.
Proof. induction l as [|x l IH]; [cbn; lra|]. cbn [map Rsum fold_right length]. fold (Rsum (map (fun _ : X => k) l)). rewrite IH, S_INR. lra. Qed.
Lemma Rsum_le {X} (f g : X -> R) l : (forall x, In x l -> f x <= g x) -> Rsum (map f l) <= Rsum (map g l).
Proof. induction l as [|x l IH]; intros Hf; [cbn; lra|]. cbn. apply Rplus_le_compat; [apply Hf; left; reflexivity|apply IH; intros y Hy; apply Hf; right; assumption]. Qed.
Lemma Rsum_nonneg {X} (f : X -> R) l : (forall x, In x l -> 0 <= f x) -> 0 <= Rsum (map f l).
Proof. induction l as [|x l IH]; intros Hf; [cbn; lra|]. cbn. apply Rplus_le_le_0_compat; [apply Hf; left; reflexivity|apply IH; intros y Hy; apply Hf; right; assumption]. Qed.
Lemma Rsum_zero {X} (f : X -> R) l : (forall x, In x l -> 0 <= f x) -> Rsum (map f l) = 0 -> forall x, In x l -> f x = 0.
Proof.
  induction l as [|x l IH]; intros Hf Hs y Hy; [destruct Hy|]. cbn in Hs. fold (Rsum (map f l)) in Hs.
  assert (0 <= f x) by (apply Hf; left; reflexivity). assert (Hl : forall y, In y l -> 0 <= f y) by (intros z Hz; apply Hf; right; assumption). pose proof (Rsum_nonneg f l Hl).
  destruct Hy as [<-|Hy]; [lra|]. apply IH; [assumption|lra|assumption].
Qed.
Lemma Rsum_flat {X Y} (f : X -> list Y) (g : Y -> R) l : Rsum (map g (flat_map f l)) = Rsum (map (fun x => Rsum (map g (f x))) l).
Proof. induction l as [|x l IH]; [reflexivity|]. cbn [flat_map map]. rewrite map_app, Rsum_app, IH. reflexivity. Qed.

Notation cnt := (count_occ eqd).

Section Counts.
  Context {X : Type} `{EqD X}.

  Lemma count_cnt (s : list X) x : count s x = cnt s x.
  Proof.
    unfold count. induction s as [|y s IH]; [reflexivity|]. cbn [filter count_occ]. destruct (eqd y x) as [->|Hn]; [rewrite eqb_refl; cbn [length]; rewrite IH; reflexivity|].
    rewrite (proj2 (eqb_false x y)) by congruence. assumption.
  Qed.

  Lemma fromkeys_in (s : list X) x : In x (fromkeys s) <-> In x s.
  Proof.
    unfold fromkeys. assert (Hg : forall s (d : dict X unit), In x (dkeys (fold_left (fun d x => dset d x tt) s d)) <-> In x (dkeys d) \/ In x s).
    { clear. induction s as [|y s IH]; intros d; cbn [fold_left]; [cbn; tauto|]. rewrite IH, dkeys_dset. destruct (dmem d y) eqn:E.
      - apply dmem_true in E. cbn. split; [tauto|]. intros [?|[<-|?]]; auto.
      - rewrite in_app_iff. cbn. tauto. }
    rewrite Hg. cbn. tauto.
  Qed.
  Lemma fromkeys_nodup (s : list X) : NoDup (fromkeys s).
  Proof.
    unfold fromkeys. assert (Hg : forall s (d : dict X unit), NoDup (dkeys d) -> NoDup (dkeys (fold_left (fun d x => dset d x tt) s d))).
    { clear. induction s as [|y s IH]; intros d Hd; cbn [fold_left]; [assumption|]. apply IH. rewrite dkeys_dset. destruct (dmem d y) eqn:E; [assumption|]. apply dmem_false in E.
      apply NoDup_rev in Hd. rewrite <- (rev_involutive (dkeys d ++ [y])). apply NoDup_rev. rewrite rev_app_distr. cbn. constructor; [rewrite <- in_rev; assumption|assumption]. }
    apply Hg. constructor.
  Qed.

  Lemma cnt_pos (s : list X) x : In x s -> 0 < INR (cnt s x).
  Proof. intros Hx. apply (count_occ_In eqd) in Hx. apply lt_0_INR. lia. Qed.
  Lemma cnt_le_len (s : list X) x : (cnt s x <= length s)%nat.
  Proof. induction s as [|y s IH]; cbn; [lia|]. destruct (eqd y x); lia. Qed.

  (** a sum over a string, symbol by symbol *)
  Lemma Rsum_indicator (f : X -> R) A y : NoDup A -> In y A -> Rsum (map (fun x => if eqd y x then f x else 0) A) = f y.
  Proof.
    induction A as [|x A IH]; intros Hnd Hy; [destruct Hy|]. apply NoDup_cons_iff in Hnd. destruct Hnd as [Hx Hnd]. cbn. fold (Rsum (map (fun x => if eqd y x then f x else 0) A)).
    destruct (eqd y x) as [->|Hn].
    - rewrite (Rsum_ext _ (fun _ => 0)); [rewrite Rsum_const; lra|]. intros z Hz. destruct (eqd x z) as [->|]; [contradiction|reflexivity].
    - destruct Hy as [->|Hy]; [congruence|]. rewrite IH by assumption. lra.
  Qed.
  Lemma sum_by_symbol (f : X -> R) A (s : list X) : NoDup A -> (forall x, In x s -> In x A) -> Rsum (map f s) = Rsum (map (fun x => INR (cnt s x) * f x) A).
  Proof.
    intros Hnd. induction s as [|y s IH]; intros Hs.
    - symmetry. rewrite (Rsum_ext _ (fun _ => 0)); [rewrite Rsum_const; cbn [map]; rewrite Rsum_nil; lra|]. intros x _. cbn. lra.
    - cbn [map Rsum fold_right]. fold (Rsum (map f s)). rewrite IH by (intros x Hx; apply Hs; right; assumption).
      rewrite <- (Rsum_indicator f A y Hnd (Hs y (or_introl eq_refl))), <- Rsum_plus. apply Rsum_ext. intros x _. cbn [count_occ]. destruct (eqd y x); [rewrite S_INR|]; lra.
  Qed.

  (** the entropy, position by position *)
  Definition gain (s : list X) (x : X) : R := (ln (INR (length s)) - ln (INR (cnt s x))) / (INR (length s) * ln 2).

  Lemma ln2_pos : 0 < ln 2.
  Proof. rewrite <- ln_1. apply ln_increasing; lra. Qed.
  Lemma ratio_pos (s : list X) x : In x s -> 0 < INR (cnt s x) / INR (length s).
  Proof. intros Hx. apply Rdiv_lt_0_compat; [apply cnt_pos; assumption|]. apply lt_0_INR. destruct s; [destruct Hx|cbn; lia]. Qed.
  Lemma len_pos (s : list X) x : In x s -> 0 < INR (length s).
  Proof. intros Hx. apply lt_0_INR. destruct s; [destruct Hx|cbn; lia]. Qed.

  Lemma plogp (s : list X) x : In x s -> - (INR (cnt s x) / INR (length s) * log2 (INR (cnt s x) / INR (length s))) = INR (cnt s x) * gain s x.
  Proof.
    intros Hx. pose proof (cnt_pos s x Hx). pose proof (len_pos s x Hx). pose proof ln2_pos. unfold log2, gain. unfold Rdiv at 3. rewrite ln_mult, ln_Rinv by (try apply Rinv_0_lt_compat; assumption). field. lra.
  Qed.
  Lemma entropy_over (s : list X) A : NoDup A -> (forall x, In x A <-> In x s) -> Rsum (map (fun x => - (INR (cnt s x) / INR (length s) * log2 (INR (cnt s x) / INR (length s)))) A) = Rsum (map (gain s) s).
  Proof.
    intros Hnd HA. rewrite (sum_by_symbol (gain s) A s Hnd) by (intros x Hx; apply HA; assumption). apply Rsum_ext. intros x Hx. apply plogp, HA, Hx.
  Qed.
  Lemma entropy_gain (s : list X) : shannon_entropy s = Rsum (map (gain s) s).
  Proof.
    unfold shannon_entropy. rewrite map_map. rewrite <- Rsum_opp, Rplus_0_r, <- (entropy_over s (fromkeys s) (fromkeys_nodup s) (fromkeys_in s)). apply Rsum_ext. intros x _. rewrite count_cnt. reflexivity.
  Qed.

  Lemma gain_nonneg (s : list X) x : In x s -> 0 <= gain s x.
  Proof.
    intros Hx. pose proof (cnt_pos s x Hx). pose proof (len_pos s x Hx). pose proof ln2_pos. unfold gain. apply Rmult_le_pos; [|apply Rlt_le, Rinv_0_lt_compat, Rmult_lt_0_compat; assumption].
    pose proof (le_INR _ _ (cnt_le_len s x)) as [Hl|Hl]; [apply ln_increasing in Hl; [lra|assumption]|rewrite Hl; lra].
  Qed.
End Counts.

(** ln x <= x - 1, equal only at 1 *)
Lemma ln_lt_sub x : 0 < x -> x <> 1 -> ln x < x - 1.
Proof. intros Hx Hn. assert (Hl : ln x <> 0) by (intros E; apply Hn; rewrite <- (exp_ln x Hx), E; apply exp_0). pose proof (exp_ineq1 (ln x) Hl) as Hi. rewrite (exp_ln x Hx) in Hi. lra. Qed.
Lemma ln_le_sub x : 0 < x -> ln x <= x - 1.
Proof. intros Hx. destruct (Req_dec x 1) as [->|Hn]; [rewrite ln_1; lra|]. apply Rlt_le, ln_lt_sub; assumption. Qed.
