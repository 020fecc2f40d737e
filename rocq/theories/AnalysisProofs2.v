(** * Bounds on entropy, joint entropy and mutual information *)
From Coq Require Import Reals Lra Permutation.
From Verif Require Import Py PyFacts ListFacts Network Evolve Utils Analysis AnalysisProofs.
Open Scope R_scope.

(** ** one string *)
Section One.
  Context {X : Type} `{EqD X}.
  Implicit Types s A : list X.

  Definition excess (z : R) : R := z - 1 - ln z.
  Lemma excess_nonneg z : 0 < z -> 0 <= excess z.
  Proof. intros Hz. pose proof (ln_le_sub z Hz). unfold excess. lra. Qed.
  Lemma excess_zero z : 0 < z -> excess z = 0 <-> z = 1.
  Proof. intros Hz. unfold excess. split; [|intros ->; rewrite ln_1; lra]. intros E. destruct (Req_dec z 1) as [|Hn]; [assumption|]. pose proof (ln_lt_sub z Hz Hn). lra. Qed.

  Definition even_share s A (x : X) : R := INR (length s) / (INR (length A) * INR (cnt s x)).

  Lemma max_gap s A : s <> [] -> NoDup A -> (forall x, In x A <-> In x s) ->
    (forall x, In x s -> 0 < even_share s A x) /\ log2 (INR (length A)) - shannon_entropy s = Rsum (map (fun x => excess (even_share s A x)) s) / (INR (length s) * ln 2).
  Proof.
    intros Hne Hnd HA. assert (Hx0 : exists x0, In x0 s) by (destruct s as [|x0 s]; [congruence|exists x0; left; reflexivity]). destruct Hx0 as [x0 Hx0].
    pose proof (len_pos s x0 Hx0) as Hn. pose proof (len_pos A x0 (proj2 (HA x0) Hx0)) as Hm. pose proof ln2_pos as Hl.
    assert (Hpos : forall x, In x s -> 0 < even_share s A x) by (intros x Hx; apply Rdiv_lt_0_compat; [assumption|apply Rmult_lt_0_compat; [assumption|apply cnt_pos; assumption]]).
    split; [assumption|]. rewrite entropy_gain.
    assert (E1 : Rsum (map (even_share s A) s) = INR (length s)).
    { rewrite (sum_by_symbol _ A s Hnd) by (intros x Hx; apply HA; assumption). rewrite (Rsum_ext _ (fun _ => INR (length s) / INR (length A))); [rewrite Rsum_const; field; lra|]. intros x Hx. apply HA in Hx. pose proof (cnt_pos s x Hx). unfold even_share. field. lra. }
    assert (E2 : Rsum (map (fun x => excess (even_share s A x)) s) = Rsum (map (fun x => (INR (length s) * ln 2) * (log2 (INR (length A)) / INR (length s) - gain s x)) s)).
    { transitivity (Rsum (map (fun x => even_share s A x + (-1 + (INR (length s) * ln 2) * (log2 (INR (length A)) / INR (length s) - gain s x))) s)).
      - apply Rsum_ext. intros x Hx. pose proof (cnt_pos s x Hx). unfold excess, even_share, gain, log2. unfold Rdiv at 2. rewrite ln_mult, ln_Rinv, ln_mult by (try apply Rinv_0_lt_compat; try apply Rmult_lt_0_compat; assumption). field. repeat split; lra.
      - rewrite !Rsum_plus, Rsum_const, E1. lra. }
    rewrite E2, Rsum_scale. unfold Rminus. rewrite Rsum_plus, Rsum_const, Rsum_opp. field. split; lra.
  Qed.

  Lemma entropy_max s A : s <> [] -> NoDup A -> (forall x, In x A <-> In x s) -> shannon_entropy s <= log2 (INR (length A)).
  Proof.
    intros Hne Hnd HA. destruct (max_gap s A Hne Hnd HA) as [Hpos E]. assert (0 <= Rsum (map (fun x => excess (even_share s A x)) s) / (INR (length s) * ln 2)); [|lra].
    apply Rmult_le_pos; [apply Rsum_nonneg; intros x Hx; apply excess_nonneg, Hpos, Hx|]. apply Rlt_le, Rinv_0_lt_compat, Rmult_lt_0_compat; [|apply ln2_pos]. destruct s as [|x s]; [congruence|]. apply (len_pos (x :: s) x). left. reflexivity.
  Qed.
  Lemma entropy_max_iff s A : s <> [] -> NoDup A -> (forall x, In x A <-> In x s) -> shannon_entropy s = log2 (INR (length A)) <-> (forall x y, In x s -> In y s -> cnt s x = cnt s y).
  Proof.
    intros Hne Hnd HA. destruct (max_gap s A Hne Hnd HA) as [Hpos E]. assert (Hx0 : exists x0, In x0 s) by (destruct s as [|x0 s]; [congruence|exists x0; left; reflexivity]). destruct Hx0 as [x0 Hx0].
    pose proof (len_pos s x0 Hx0) as Hn. pose proof (len_pos A x0 (proj2 (HA x0) Hx0)) as Hm. pose proof ln2_pos as Hl. assert (Hd : 0 < INR (length s) * ln 2) by (apply Rmult_lt_0_compat; assumption).
    assert (Hz : forall x, In x s -> even_share s A x = 1 <-> INR (length s) = INR (length A) * INR (cnt s x)).
    { intros x Hx. pose proof (cnt_pos s x Hx) as Hc. unfold even_share. assert (0 < INR (length A) * INR (cnt s x)) by (apply Rmult_lt_0_compat; assumption). split; intros Hq; [apply (Rmult_eq_compat_r (INR (length A) * INR (cnt s x))) in Hq; unfold Rdiv in Hq; rewrite Rmult_assoc, Rinv_l, Rmult_1_r, Rmult_1_l in Hq by lra; exact Hq|rewrite Hq; apply Rinv_r; lra]. }
    split.
    - intros Eq. assert (Es : Rsum (map (fun x => excess (even_share s A x)) s) = 0).
      { assert (E' : Rsum (map (fun x => excess (even_share s A x)) s) / (INR (length s) * ln 2) = 0) by lra. apply (Rmult_eq_compat_r (INR (length s) * ln 2)) in E'. unfold Rdiv in E'. rewrite Rmult_assoc, Rinv_l, Rmult_1_r in E'; lra. }
      intros x y Hx Hy. pose proof (Rsum_zero _ s (fun z Hz => excess_nonneg _ (Hpos z Hz)) Es) as H0.
      assert (Ex : even_share s A x = 1) by (apply excess_zero; auto). assert (Ey : even_share s A y = 1) by (apply excess_zero; auto). apply Hz in Ex, Ey; try assumption. apply INR_eq. apply (Rmult_eq_reg_l (INR (length A))); lra.
    - intros Hall. assert (Hk : INR (length s) = INR (length A) * INR (cnt s x0)).
      { transitivity (Rsum (map (fun _ => 1) s)); [rewrite Rsum_const; lra|]. rewrite (sum_by_symbol _ A s Hnd) by (intros x Hx; apply HA; assumption). rewrite (Rsum_ext _ (fun _ => INR (cnt s x0))); [apply Rsum_const|]. intros x Hx. apply HA in Hx. rewrite (Hall x x0) by assumption. lra. }
      assert (Es : Rsum (map (fun x => excess (even_share s A x)) s) = 0); [|rewrite Es in E; unfold Rdiv in E; lra].
      rewrite (Rsum_ext _ (fun _ => 0)); [rewrite Rsum_const; lra|]. intros x Hx. apply excess_zero; [auto|]. apply Hz; [assumption|]. rewrite (Hall x x0); assumption.
  Qed.

  Lemma entropy_nonneg s : 0 <= shannon_entropy s.
  Proof. rewrite entropy_gain. apply Rsum_nonneg. intros x Hx. apply gain_nonneg, Hx. Qed.
  Lemma cnt_all s x : cnt s x = length s <-> forall y, In y s -> y = x.
  Proof.
    induction s as [|y s IH]; cbn [count_occ length]; [split; [intros _ ? []|reflexivity]|]. pose proof (cnt_le_len s x). destruct (eqd y x) as [->|Hn].
    - split; [intros E z [<-|Hz]; [reflexivity|apply IH; [lia|assumption]]|]. intros Hall. f_equal. apply IH. intros z Hz. apply Hall. right. assumption.
    - split; [lia|]. intros Hall. exfalso. apply Hn, Hall. left. reflexivity.
  Qed.
  Lemma entropy_zero s : shannon_entropy s = 0 <-> forall x y, In x s -> In y s -> x = y.
  Proof.
    rewrite entropy_gain. split.
    - intros E x y Hx Hy. pose proof (Rsum_zero _ s (gain_nonneg s) E x Hx) as Hg. pose proof (cnt_pos s x Hx) as Hc. pose proof (len_pos s x Hx) as Hn. pose proof ln2_pos. unfold gain in Hg.
      assert (Hd : ln (INR (length s)) - ln (INR (cnt s x)) = 0). { apply (Rmult_eq_compat_r (INR (length s) * ln 2)) in Hg. unfold Rdiv in Hg. rewrite Rmult_assoc, Rinv_l, Rmult_1_r in Hg; [lra|]. apply Rgt_not_eq, Rmult_lt_0_compat; assumption. }
      assert (He : INR (cnt s x) = INR (length s)) by (apply ln_inv; lra). apply INR_eq in He. symmetry. exact (proj1 (cnt_all s x) He y Hy).
    - intros Hall. rewrite (Rsum_ext _ (fun _ => 0)); [rewrite Rsum_const; lra|]. intros x Hx. unfold gain. assert (E : cnt s x = length s) by (apply cnt_all; intros y Hy; apply Hall; assumption). rewrite E. unfold Rdiv. lra.
  Qed.
  Lemma entropy_perm s s' : Permutation s s' -> shannon_entropy s = shannon_entropy s'.
  Proof.
    intros Hp. rewrite !entropy_gain, (Rsum_perm _ _ (Permutation_map (gain s) Hp)). apply Rsum_ext. intros x _. unfold gain. rewrite (Permutation_length Hp), (proj1 (Permutation_count_occ eqd s s') Hp x). reflexivity.
  Qed.
End One.

Lemma cnt_map {X Y} `{EqD X} `{EqD Y} (f : X -> Y) (s : list X) x : (forall y, In y s -> f y = f x -> y = x) -> cnt (map f s) (f x) = cnt s x.
Proof.
  induction s as [|y s IH]; intros Hf; [reflexivity|]. cbn [map count_occ]. rewrite IH by (intros z Hz; apply Hf; right; assumption).
  destruct (eqd (f y) (f x)) as [E|Hn], (eqd y x) as [E'|Hn']; try reflexivity; [exfalso; apply Hn', (Hf y (or_introl eq_refl)), E|congruence].
Qed.
Lemma entropy_map {X Y} `{EqD X} `{EqD Y} (f : X -> Y) (s : list X) : (forall x y, In x s -> In y s -> f x = f y -> x = y) -> shannon_entropy (map f s) = shannon_entropy s.
Proof.
  intros Hf. rewrite !entropy_gain, map_map. apply Rsum_ext. intros x Hx. unfold gain. rewrite map_length, cnt_map; [reflexivity|]. intros y Hy. apply Hf; assumption.
Qed.

(** ** two strings, as a list of pairs *)
Section Two.
  Context {X Y : Type} `{EqD X} `{EqD Y}.
  Implicit Types ps : list (X * Y).

  Lemma cnt_fst ps p : (cnt ps p <= cnt (map fst ps) (fst p))%nat.
  Proof. induction ps as [|q ps IH]; [cbn; lia|]. cbn [map count_occ]. destruct (eqd q p) as [->|]; destruct (eqd (fst _) (fst p)); try congruence; lia. Qed.
  Lemma cnt_fst_eq ps p : cnt ps p = cnt (map fst ps) (fst p) <-> forall q, In q ps -> fst q = fst p -> q = p.
  Proof.
    induction ps as [|q ps IH]; [split; [intros _ ? []|reflexivity]|]. pose proof (cnt_fst ps p). cbn [map count_occ]. destruct (eqd q p) as [->|Hn].
    - destruct (eqd (fst p) (fst p)); [|congruence]. split.
      + intros E r [<-|Hr] Hf; [reflexivity|]. apply IH; [lia|assumption|assumption].
      + intros Hall. f_equal. apply IH. intros r Hr. apply Hall. right. assumption.
    - destruct (eqd (fst q) (fst p)) as [E|Hf].
      + split; [lia|]. intros Hall. exfalso. apply Hn, Hall; [left; reflexivity|assumption].
      + split.
        * intros E r [<-|Hr] Hr'; [congruence|]. apply IH; assumption.
        * intros Hall. apply IH. intros r Hr. apply Hall. right. assumption.
  Qed.

  Lemma joint_gap ps : (forall p, In p ps -> 0 <= gain ps p - gain (map fst ps) (fst p)) /\ shannon_entropy ps - shannon_entropy (map fst ps) = Rsum (map (fun p => gain ps p - gain (map fst ps) (fst p)) ps).
  Proof.
    split.
    - intros p Hp. pose proof (cnt_pos ps p Hp) as Hc. pose proof (len_pos ps p Hp) as Hn. pose proof ln2_pos. pose proof (le_INR _ _ (cnt_fst ps p)) as Hle. unfold gain. rewrite map_length. unfold Rdiv. rewrite <- Rmult_minus_distr_r. apply Rmult_le_pos; [|apply Rlt_le, Rinv_0_lt_compat, Rmult_lt_0_compat; assumption].
      destruct Hle as [Hl|Hl]; [apply ln_increasing in Hl; lra|rewrite Hl; lra].
    - rewrite !entropy_gain, map_map. unfold Rminus. rewrite Rsum_plus, Rsum_opp. reflexivity.
  Qed.
  Lemma joint_ge ps : shannon_entropy (map fst ps) <= shannon_entropy ps.
  Proof. destruct (joint_gap ps) as [Hp E]. pose proof (Rsum_nonneg _ ps Hp). lra. Qed.
  Lemma joint_eq ps : shannon_entropy (map fst ps) = shannon_entropy ps <-> forall p q, In p ps -> In q ps -> fst p = fst q -> snd p = snd q.
  Proof.
    destruct (joint_gap ps) as [Hp E]. split.
    - intros Eq p q Ip Iq Hf. assert (E0 : Rsum (map (fun p => gain ps p - gain (map fst ps) (fst p)) ps) = 0) by lra. pose proof (Rsum_zero _ ps Hp E0 p Ip) as Hg. cbn beta in Hg.
      pose proof (cnt_pos ps p Ip) as Hc. pose proof (len_pos ps p Ip) as Hn. pose proof ln2_pos as Hl. pose proof (le_INR _ _ (cnt_fst ps p)) as Hle. unfold gain in Hg. rewrite map_length in Hg. unfold Rdiv in Hg. rewrite <- Rmult_minus_distr_r in Hg. apply Rmult_integral in Hg.
      destruct Hg as [Hg|Hg]; [|exfalso; revert Hg; apply Rgt_not_eq, Rinv_0_lt_compat, Rmult_lt_0_compat; assumption].
      assert (Ec : INR (cnt ps p) = INR (cnt (map fst ps) (fst p))) by (apply ln_inv; lra). apply INR_eq in Ec. assert (q = p) by (apply (proj1 (cnt_fst_eq ps p) Ec); congruence). congruence.
    - intros Hall. assert (E0 : Rsum (map (fun p => gain ps p - gain (map fst ps) (fst p)) ps) = 0); [|lra]. rewrite (Rsum_ext _ (fun _ => 0)); [rewrite Rsum_const; lra|]. intros p Ip. unfold gain. rewrite map_length.
      assert (Ec : cnt ps p = cnt (map fst ps) (fst p)). { apply cnt_fst_eq. intros q Iq Hf. rewrite (surjective_pairing q), (surjective_pairing p), Hf. f_equal. symmetry. apply Hall; auto. }
      rewrite Ec. lra.
  Qed.

  Lemma NoDup_prod (A : list X) (B : list Y) : NoDup A -> NoDup B -> NoDup (list_prod A B).
  Proof.
    intros HA HB. induction A as [|a A IH]; [constructor|]. apply NoDup_cons_iff in HA. destruct HA as [Ha HA]. cbn [list_prod]. assert (Hm : NoDup (map (fun y => (a, y)) B)) by (apply FinFun.Injective_map_NoDup; [intros y y' E; congruence|assumption]).
    specialize (IH HA). revert Hm. assert (Hd : forall q, In q (map (fun y => (a, y)) B) -> ~ In q (list_prod A B)) by (intros q Hq Hq'; apply in_map_iff in Hq; destruct Hq as (y & <- & _); apply in_prod_iff in Hq'; tauto). revert Hd. generalize (map (fun y : Y => (a, y)) B). intros l Hd Hl. clear - IH Hd Hl. induction l as [|q l IHl]; [assumption|]. apply NoDup_cons_iff in Hl. destruct Hl as [Hq Hl]. cbn. constructor.
    - rewrite in_app_iff. intros [Hx|Hx]; [contradiction|]. apply (Hd q); [left; reflexivity|assumption].
    - apply IHl; [|assumption]. intros r Hr. apply Hd. right. assumption.
  Qed.

  Definition share ps (p : X * Y) : R := INR (cnt (map fst ps) (fst p)) * INR (cnt (map snd ps) (snd p)) / (INR (length ps) * INR (cnt ps p)).
  Definition missing ps (A : list X) (B : list Y) : R := Rsum (map (fun p => if eqd (cnt ps p) 0%nat then INR (cnt (map fst ps) (fst p)) * INR (cnt (map snd ps) (snd p)) / INR (length ps) else 0) (list_prod A B)).

  Lemma mutual_gap ps A B : ps <> [] -> NoDup A -> NoDup B -> (forall x, In x A <-> In x (map fst ps)) -> (forall y, In y B <-> In y (map snd ps)) ->
    (forall p, In p ps -> 0 < share ps p) /\ shannon_entropy (map fst ps) + shannon_entropy (map snd ps) - shannon_entropy ps = (Rsum (map (fun p => excess (share ps p)) ps) + missing ps A B) / (INR (length ps) * ln 2).
  Proof.
    intros Hne HA HB IA IB. assert (Hp0 : exists p0, In p0 ps) by (destruct ps as [|p0 ps]; [congruence|exists p0; left; reflexivity]). destruct Hp0 as [p0 Hp0]. pose proof (len_pos ps p0 Hp0) as Hn. pose proof ln2_pos as Hl.
    assert (Hpos : forall p, In p ps -> 0 < INR (cnt (map fst ps) (fst p)) /\ 0 < INR (cnt (map snd ps) (snd p)) /\ 0 < INR (cnt ps p)) by (intros p Hp; repeat split; apply cnt_pos; try apply in_map; assumption).
    split. { intros p Hp. destruct (Hpos p Hp) as (H1 & H2 & H3). apply Rdiv_lt_0_compat; apply Rmult_lt_0_compat; assumption. }
    assert (Hprod : forall p, In p ps -> In p (list_prod A B)) by (intros [x y] Hp; apply in_prod; [apply IA|apply IB]; [change x with (fst (x, y))|change y with (snd (x, y))]; apply in_map; assumption).
    assert (E1 : Rsum (map (share ps) ps) + missing ps A B = INR (length ps)).
    { rewrite (sum_by_symbol _ (list_prod A B) ps (NoDup_prod A B HA HB) Hprod). unfold missing. rewrite <- Rsum_plus.
      transitivity (Rsum (map (fun p => INR (cnt (map fst ps) (fst p)) * INR (cnt (map snd ps) (snd p)) / INR (length ps)) (list_prod A B))).
      { apply Rsum_ext. intros p _. destruct (eqd (cnt ps p) 0%nat) as [E|E]; [rewrite E; cbn [INR]; lra|]. assert (0 < INR (cnt ps p)) by (apply lt_0_INR; lia). unfold share. field. lra. }
      assert (Eflat : forall (f : X * Y -> R) (A : list X) (B : list Y), Rsum (map f (list_prod A B)) = Rsum (map (fun x => Rsum (map (fun y => f (x, y)) B)) A)).
      { clear. intros f A B. induction A as [|x A IH]; [reflexivity|]. cbn [list_prod map]. rewrite map_app, Rsum_app, IH, map_map. reflexivity. }
      rewrite Eflat. cbn [fst snd].
      assert (Sx : Rsum (map (fun x => INR (cnt (map fst ps) x)) A) = INR (length ps)). { rewrite <- (map_length fst ps). transitivity (Rsum (map (fun _ => 1) (map fst ps))); [|rewrite Rsum_const; lra]. rewrite (sum_by_symbol _ A (map fst ps) HA) by (intros; apply IA; assumption). apply Rsum_ext. intros. lra. }
      assert (Sy : Rsum (map (fun y => INR (cnt (map snd ps) y)) B) = INR (length ps)). { rewrite <- (map_length snd ps). transitivity (Rsum (map (fun _ => 1) (map snd ps))); [|rewrite Rsum_const; lra]. rewrite (sum_by_symbol _ B (map snd ps) HB) by (intros; apply IB; assumption). apply Rsum_ext. intros. lra. }
      rewrite (Rsum_ext _ (fun x => INR (cnt (map fst ps) x))); [assumption|]. intros x _. rewrite (Rsum_ext _ (fun y => (INR (cnt (map fst ps) x) / INR (length ps)) * INR (cnt (map snd ps) y))) by (intros; field; lra). rewrite Rsum_scale, Sy. field. lra. }
    assert (E2 : Rsum (map (fun p => excess (share ps p)) ps) = Rsum (map (fun p => share ps p + (-1 + (INR (length ps) * ln 2) * (gain (map fst ps) (fst p) + (gain (map snd ps) (snd p) + - gain ps p)))) ps)).
    { apply Rsum_ext. intros p Hp. destruct (Hpos p Hp) as (H1 & H2 & H3). unfold excess, share, gain. rewrite !map_length. unfold Rdiv at 2. rewrite ln_mult, ln_mult, ln_Rinv, ln_mult by (try apply Rinv_0_lt_compat; try apply Rmult_lt_0_compat; assumption). field. repeat split; lra. }
    rewrite !Rsum_plus, Rsum_const, Rsum_scale, !Rsum_plus, Rsum_opp in E2. rewrite !entropy_gain, !map_map, E2.
    replace (missing ps A B) with (INR (length ps) - Rsum (map (share ps) ps)) by lra. field. split; lra.
  Qed.

  Lemma missing_nonneg ps A B : ps <> [] -> 0 <= missing ps A B.
  Proof.
    intros Hne. apply Rsum_nonneg. intros p _. destruct (eqd _ _); [|lra]. apply Rmult_le_pos; [apply Rmult_le_pos; apply pos_INR|]. apply Rlt_le, Rinv_0_lt_compat. destruct ps as [|q ps]; [congruence|]. apply (len_pos (q :: ps) q). left. reflexivity.
  Qed.

  Lemma entropy_nil {Z} `{EqD Z} : shannon_entropy (@nil Z) = 0.
  Proof. rewrite entropy_gain. reflexivity. Qed.

  Lemma mutual_nonneg ps : shannon_entropy ps <= shannon_entropy (map fst ps) + shannon_entropy (map snd ps).
  Proof.
    destruct ps as [|q ps]; [cbn [map]; rewrite !entropy_nil; lra|]. set (l := q :: ps). assert (Hne : l <> []) by discriminate.
    destruct (mutual_gap l (fromkeys (map fst l)) (fromkeys (map snd l)) Hne (fromkeys_nodup _) (fromkeys_nodup _) (fromkeys_in _) (fromkeys_in _)) as [Hpos E].
    pose proof (missing_nonneg l (fromkeys (map fst l)) (fromkeys (map snd l)) Hne). pose proof (Rsum_nonneg _ l (fun p Hp => excess_nonneg _ (Hpos p Hp))).
    assert (0 <= (Rsum (map (fun p => excess (share l p)) l) + missing l (fromkeys (map fst l)) (fromkeys (map snd l))) / (INR (length l) * ln 2)); [|lra].
    apply Rmult_le_pos; [lra|]. apply Rlt_le, Rinv_0_lt_compat, Rmult_lt_0_compat; [apply (len_pos l q); left; reflexivity|apply ln2_pos].
  Qed.

  (** no information exactly when the two are independent *)
  Lemma mutual_zero ps : shannon_entropy (map fst ps) + shannon_entropy (map snd ps) - shannon_entropy ps = 0 <->
    forall x y, (length ps * cnt ps (x, y) = cnt (map fst ps) x * cnt (map snd ps) y)%nat.
  Proof.
    destruct ps as [|q ps]; [cbn [map]; rewrite !entropy_nil; cbn; split; intros; lra || lia|]. set (l := q :: ps). assert (Hne : l <> []) by discriminate.
    set (A := fromkeys (map fst l)). set (B := fromkeys (map snd l)). destruct (mutual_gap l A B Hne (fromkeys_nodup _) (fromkeys_nodup _) (fromkeys_in _) (fromkeys_in _)) as [Hpos E]. rewrite E.
    pose proof (missing_nonneg l A B Hne) as Hm. pose proof (Rsum_nonneg _ l (fun p Hp => excess_nonneg _ (Hpos p Hp))) as He. cbn beta in He. pose proof ln2_pos as Hl. assert (Hn : 0 < INR (length l)) by (apply (len_pos l q); left; reflexivity).
    assert (Hd : 0 < INR (length l) * ln 2) by (apply Rmult_lt_0_compat; assumption).
    assert (Hz : forall p, In p l -> share l p = 1 <-> (length l * cnt l p = cnt (map fst l) (fst p) * cnt (map snd l) (snd p))%nat).
    { intros p Hp. pose proof (cnt_pos l p Hp) as Hc. assert (0 < INR (length l) * INR (cnt l p)) by (apply Rmult_lt_0_compat; assumption). unfold share. split; intros Hq.
      - apply (Rmult_eq_compat_r (INR (length l) * INR (cnt l p))) in Hq. unfold Rdiv in Hq. rewrite Rmult_assoc, Rinv_l, Rmult_1_r, Rmult_1_l in Hq by lra. rewrite <- !mult_INR in Hq. apply INR_eq in Hq. symmetry. assumption.
      - rewrite <- !mult_INR, <- Hq. apply Rinv_r. rewrite mult_INR. lra. }
    split.
    - intros E0. apply Rmult_integral in E0. destruct E0 as [E0|E0]; [|exfalso; revert E0; apply Rgt_not_eq, Rinv_0_lt_compat; assumption].
      assert (E1 : Rsum (map (fun p => excess (share l p)) l) = 0) by lra. assert (E2 : missing l A B = 0) by lra. intros x y.
      destruct (eqd (cnt l (x, y)) 0%nat) as [Ec|Ec].
      + rewrite Ec. assert (Hx : ((cnt (map fst l) x = 0 \/ cnt (map snd l) y = 0) \/ (0 < cnt (map fst l) x /\ 0 < cnt (map snd l) y))%nat) by lia. destruct Hx as [Hx|[Hx Hy]]; [nia|]. exfalso.
        assert (Hi : In (x, y) (list_prod A B)) by (apply in_prod; apply fromkeys_in, (count_occ_In eqd); assumption).
        assert (Ht : forall p, In p (list_prod A B) -> 0 <= (if eqd (cnt l p) 0%nat then INR (cnt (map fst l) (fst p)) * INR (cnt (map snd l) (snd p)) / INR (length l) else 0)).
        { intros p _. destruct (eqd _ _); [|lra]. apply Rmult_le_pos; [apply Rmult_le_pos; apply pos_INR|]. apply Rlt_le, Rinv_0_lt_compat. assumption. }
        pose proof (Rsum_zero _ _ Ht E2 (x, y) Hi) as Hs0. cbn beta in Hs0. destruct (eqd (cnt l (x, y)) 0%nat) as [_|Hx']; [|contradiction]. cbn [fst snd] in Hs0. apply lt_0_INR in Hx, Hy. revert Hs0. apply Rgt_not_eq, Rdiv_lt_0_compat; [apply Rmult_lt_0_compat; assumption|assumption].
      + assert (Hi : In (x, y) l) by (apply (count_occ_In eqd); lia). apply (Hz (x, y) Hi). apply excess_zero; [auto|]. apply (Rsum_zero _ l (fun p Hp => excess_nonneg _ (Hpos p Hp)) E1 (x, y) Hi).
    - intros Hall. assert (E1 : Rsum (map (fun p => excess (share l p)) l) = 0).
      { rewrite (Rsum_ext _ (fun _ => 0)); [rewrite Rsum_const; lra|]. intros [x y] Hp. apply excess_zero; [auto|]. apply Hz; [assumption|]. apply Hall. }
      assert (E2 : missing l A B = 0).
      { unfold missing. rewrite (Rsum_ext _ (fun _ => 0)); [rewrite Rsum_const; lra|]. intros [x y] _. destruct (eqd (cnt l (x, y)) 0%nat) as [Ec|]; [|reflexivity]. cbn [fst snd]. rewrite <- mult_INR, <- Hall, Ec, Nat.mul_0_r. cbn [INR]. lra. }
      rewrite E1, E2. unfold Rdiv. lra.
  Qed.
End Two.

(** ** joint_shannon_entropy is the entropy of the string of pairs *)
Definition any_set_order {X} (f : list X -> list X) : Prop := forall l, NoDup (f l) /\ forall x, In x (f l) <-> In x l.

Section Joint.
  Context {X Y : Type} `{EqD X} `{EqD Y}.
  Context (set_x : list X -> list X) (set_y : list Y -> list Y).

  Lemma and_counts (s : list X) (t : list Y) x y : length s = length t -> exists m, logical_and (np_eq s x) (np_eq t y) = Ok m /\ length m = length s /\ length (filter (fun b => b) m) = cnt (combine s t) (x, y).
  Proof.
    intros Hl. unfold logical_and, np_eq. rewrite !map_length, Hl, Nat.eqb_refl. eexists. split; [reflexivity|]. split; [rewrite map_length, combine_length, !map_length; lia|].
    revert t Hl. induction s as [|a s IH]; intros [|b t] Hl; try discriminate; [reflexivity|]. cbn [map combine filter count_occ fst snd]. injection Hl as Hl. destruct (eqd (a, b) (x, y)) as [E|Hn].
    - injection E as -> ->. rewrite !eqb_refl. cbn [andb length]. f_equal. apply IH. assumption.
    - destruct (eqb a x) eqn:E1, (eqb b y) eqn:E2; cbn [andb]; try (apply IH; assumption). apply eqb_eq in E1; apply eqb_eq in E2. congruence.
  Qed.

  Lemma joint_is_entropy (s : list X) (t : list Y) : any_set_order set_x -> any_set_order set_y -> length s = length t -> joint_shannon_entropy set_x set_y s t = Ok (shannon_entropy (combine s t)).
  Proof.
    intros Hx Hy Hl. unfold joint_shannon_entropy. set (pr := fun q => ratio (cnt (combine s t) q) (length (combine s t))).
    assert (E : forall B A acc, rfold (fun acc x => rfold (fun acc y => m <- logical_and (np_eq s x) (np_eq t y) ;; Ok (acc ++ [np_mean_bool m])) B acc) A acc = Ok (acc ++ map pr (list_prod A B))).
    { intros B. assert (E1 : forall x B acc, rfold (fun acc y => m <- logical_and (np_eq s x) (np_eq t y) ;; Ok (acc ++ [np_mean_bool m])) B acc = Ok (acc ++ map pr (map (fun y => (x, y)) B))).
      { intros x. induction B0 as [|y B0 IH]; intros acc; [cbn; rewrite app_nil_r; reflexivity|]. cbn [rfold map]. destruct (and_counts s t x y Hl) as (m & Em & Hm & Hc). rewrite Em. cbn [rbind]. rewrite IH, <- app_assoc. cbn [app]. unfold np_mean_bool, pr at 2. rewrite Hm, Hc, combine_length, Hl, Nat.min_id. reflexivity. }
      induction A as [|x A IH]; intros acc; [cbn; rewrite app_nil_r; reflexivity|]. cbn [rfold list_prod]. rewrite E1. cbn [rbind]. rewrite IH, map_app, <- app_assoc. reflexivity. }
    rewrite E. cbn [rbind app]. f_equal. destruct (Hx s) as [NX IX], (Hy t) as [NY IY]. rewrite entropy_gain.
    assert (Ef : forall l : list (X * Y), filter (fun p => if Req_EM_T p 0 then false else true) (map pr l) = map pr (filter (fun q => if in_dec eqd q (combine s t) then true else false) l)).
    { induction l as [|q l IH]; [reflexivity|]. cbn [map filter]. rewrite IH. destruct (in_dec eqd q (combine s t)) as [Hi|Hi]; destruct (Req_EM_T (pr q) 0) as [E0|E0]; try reflexivity.
      - exfalso. revert E0. apply Rgt_not_eq, ratio_pos. assumption.
      - exfalso. apply E0. unfold pr, ratio. rewrite (proj1 (count_occ_not_In eqd _ _) Hi). cbn. unfold Rdiv. lra. }
    rewrite Ef, map_map. rewrite <- (entropy_over (combine s t) (filter (fun q => if in_dec eqd q (combine s t) then true else false) (list_prod (set_x s) (set_y t)))).
    - apply Rsum_ext. intros q _. unfold pr, ratio. lra.
    - apply NoDup_filter, NoDup_prod; assumption.
    - intros [x y]. rewrite filter_In. destruct (in_dec eqd (x, y) (combine s t)) as [Hi|Hi]; [|split; [intros [_ ?]; discriminate|contradiction]]. split; [tauto|]. intros _. split; [|reflexivity]. apply in_prod; [apply IX; eapply in_combine_l, Hi|apply IY; eapply in_combine_r, Hi].
  Qed.

  Lemma fst_combine (s : list X) (t : list Y) : length s = length t -> map fst (combine s t) = s.
  Proof. revert t. induction s as [|a s IH]; intros [|b t] Hl; try discriminate; [reflexivity|]. cbn. f_equal. apply IH. injection Hl. auto. Qed.
  Lemma snd_combine (s : list X) (t : list Y) : length s = length t -> map snd (combine s t) = t.
  Proof. revert t. induction s as [|a s IH]; intros [|b t] Hl; try discriminate; [reflexivity|]. cbn. f_equal. apply IH. injection Hl. auto. Qed.
End Joint.
