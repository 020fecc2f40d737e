(** Proofs about the data of plots (Plot.v) *)
From Verif Require Import Py PyFacts ListFacts Network NetworkSpec NetworkProofs NetworkProofs2 NetworkProofs3 Plot.
Open Scope string_scope.
Open Scope list_scope.
Open Scope Z_scope.

(** ** degree distribution *)
Definition num (p : Z -> bool) (l : list Z) : Z := Z.of_nat (length (filter p l)).
Definition getz (d : dict Z Z) (i : Z) : Z := match dget d i with Some c => c | None => 0 end.

Lemma num_cons p x l : num p (x :: l) = (if p x then 1 else 0) + num p l.
Proof. unfold num. cbn [filter]. destruct (p x); cbn [length]; lia. Qed.

Lemma dd_counts l : forall counts, exists counts', rfold dd_count l counts = Ok counts' /\
  (forall i, getz counts' i = getz counts i + num (Z.eqb i) l) /\ forall i, In i (dkeys counts') <-> In i (dkeys counts) \/ In i l.
Proof.
  induction l as [|d l IH]; intros counts; cbn [rfold].
  - exists counts. split; [reflexivity|]. split; [intros i; unfold num; cbn; lia|cbn; tauto].
  - unfold dd_count at 1. set (c1 := if dmem counts d then counts else dset counts d 0).
    assert (E1 : dget c1 d = Some (getz counts d)).
    { unfold c1, getz, dmem. destruct (dget counts d) eqn:E; [exact E|]. apply dget_dset_eq. }
    rewrite E1. cbn [of_opt rbind]. destruct (IH (dset c1 d (getz counts d + 1))) as (c' & E & Hg & Hk). exists c'. split; [exact E|]. split.
    + intros i. rewrite Hg, num_cons. unfold getz at 1. rewrite dget_dset. destruct (eqd i d) as [-> |Hne]; [rewrite Z.eqb_refl; lia|].
      destruct (Z.eqb_spec i d); [contradiction|]. unfold c1, getz. destruct (dmem counts d); [lia|]. rewrite dget_dset. destruct (eqd i d); [contradiction|lia].
    + intros i. rewrite Hk, in_dkeys_dset. cbn [In]. assert (Hc1 : In i (dkeys c1) <-> In i (dkeys counts) \/ i = d).
      { unfold c1. destruct (dmem counts d) eqn:Em; [|rewrite in_dkeys_dset; tauto]. apply dmem_true in Em. split; [auto|]. intros [Hx| ->]; assumption. }
      rewrite Hc1. intuition congruence.
Qed.

Lemma zmax_fold l : forall d, In (fold_left Z.max l d) (d :: l) /\ forall x, In x (d :: l) -> x <= fold_left Z.max l d.
Proof.
  induction l as [|y l IH]; intros d; cbn [fold_left]; [split; [left; reflexivity|intros x [-> |[]]; lia]|].
  destruct (IH (Z.max d y)) as [Hi Hm]. split.
  - destruct Hi as [Hi|Hi]; [|right; right; assumption]. destruct (Z.max_spec d y) as [[_ E]|[_ E]]; rewrite E in Hi; [right; left|left]; congruence.
  - pose proof (Hm (Z.max d y) (or_introl eq_refl)) as Hb. intros x [-> |[-> |Hx]]; [lia|lia|apply Hm; right; assumption].
Qed.

Lemma num_sum l : forall m, (forall x, In x l -> x <= m) -> zsum (map (fun i => num (Z.eqb i) l) (zrange 1 (m + 1))) = num (Z.leb 1) l.
Proof.
  induction l as [|x l IH]; intros m Hm.
  - unfold num. cbn. induction (zrange 1 (m + 1)); [reflexivity|]. cbn. assumption.
  - rewrite num_cons, <- (IH m) by (intros y Hy; apply Hm; right; assumption).
    assert (G : forall r, NoDup r -> zsum (map (fun i => num (Z.eqb i) (x :: l)) r) = (if in_dec Z.eq_dec x r then 1 else 0) + zsum (map (fun i => num (Z.eqb i) l) r)).
    { induction r as [|i r IHr]; intros Hr; [reflexivity|]. apply NoDup_cons_iff in Hr. destruct Hr as [Hi Hr]. cbn [map zsum fold_right]. unfold zsum in *. cbn [fold_right]. rewrite (IHr Hr), num_cons.
      destruct (Z.eqb_spec i x) as [-> |Hne].
      - destruct (in_dec Z.eq_dec x (x :: r)) as [_|Hn]; [|exfalso; apply Hn; left; reflexivity]. destruct (in_dec Z.eq_dec x r); [contradiction|]. lia.
      - destruct (in_dec Z.eq_dec x (i :: r)) as [Hx|Hx], (in_dec Z.eq_dec x r) as [Hy|Hy]; try lia; exfalso; [destruct Hx; congruence|apply Hx; right; assumption]. }
    rewrite G by apply NoDup_zrange. f_equal. specialize (Hm x (or_introl eq_refl)). destruct (in_dec Z.eq_dec x (zrange 1 (m + 1))) as [Hx|Hx]; rewrite in_zrange in Hx; destruct (Z.leb_spec 1 x); lia.
Qed.

Lemma num_weighted l : forall m, (forall x, In x l -> 0 <= x <= m) -> zsum (map (fun i => i * num (Z.eqb i) l) (zrange 1 (m + 1))) = zsum l.
Proof.
  induction l as [|x l IH]; intros m Hm.
  - unfold num. cbn. induction (zrange 1 (m + 1)); [reflexivity|]. cbn. rewrite Z.mul_0_r. assumption.
  - unfold zsum. cbn [fold_right]. fold (zsum l). rewrite <- (IH m) by (intros y Hy; apply Hm; right; assumption).
    assert (G : forall r, NoDup r -> fold_right Z.add 0 (map (fun i => i * num (Z.eqb i) (x :: l)) r) = (if in_dec Z.eq_dec x r then x else 0) + zsum (map (fun i => i * num (Z.eqb i) l) r)).
    { induction r as [|i r IHr]; intros Hr; [reflexivity|]. apply NoDup_cons_iff in Hr. destruct Hr as [Hi Hr]. unfold zsum in *. cbn [map fold_right]. rewrite (IHr Hr), num_cons.
      destruct (Z.eqb_spec i x) as [-> |Hne].
      - destruct (in_dec Z.eq_dec x (x :: r)) as [_|Hn]; [|exfalso; apply Hn; left; reflexivity]. destruct (in_dec Z.eq_dec x r); [contradiction|]. lia.
      - destruct (in_dec Z.eq_dec x (i :: r)) as [Hx|Hx], (in_dec Z.eq_dec x r) as [Hy|Hy]; try lia; exfalso; [destruct Hx; congruence|apply Hx; right; assumption]. }
    rewrite G by apply NoDup_zrange. f_equal. specialize (Hm x (or_introl eq_refl)). destruct (in_dec Z.eq_dec x (zrange 1 (m + 1))) as [Hx|Hx]; rewrite in_zrange in Hx; lia.
Qed.

Section Degrees.
  Context {L V : Type} `{EqD L}.

  Lemma group_lengths {A} (f : A -> L) (ks : list L) (l : list A) : NoDup ks -> (forall x, In x l -> In (f x) ks) ->
    zsum (map (fun k => Z.of_nat (length (filter (fun x => eqb (f x) k) l))) ks) = Z.of_nat (length l).
  Proof.
    intros Hk Hl. rewrite <- (Permutation_length (perm_group f ks l Hk Hl)). clear Hk Hl. induction ks as [|k ks IH]; [reflexivity|]. cbn [map flat_map]. unfold zsum in *. cbn [fold_right]. rewrite IH, app_length. lia.
  Qed.

  Definition deg_of (net : network L V) (use_in use_out : bool) (v : L) : Z :=
    let i := Z.of_nat (length (filter (fun e => eqb (snd (fst e)) v) (edges net))) in
    let o := Z.of_nat (length (filter (fun e => eqb (fst (fst e)) v) (edges net))) in
    if use_in then i else if use_out then o else o + i.

  Lemma dd_degree_ok net ui uo v : reachable net -> In v (nodes net) -> dd_degree net ui uo v = Ok (deg_of net ui uo v).
  Proof.
    intros Hr Hv. pose proof (degrees_exact net v Hr) as Hd. destruct (in_dec eqd v (nodes net)); [|contradiction]. destruct Hd as (Hi & Ho & di & do & E1 & E2 & E3). unfold dd_degree, deg_of.
    destruct ui; [assumption|]. destruct uo; [assumption|]. congruence.
  Qed.

  Lemma zsum_map_add {A} (f g : A -> Z) l : zsum (map (fun x => f x + g x) l) = zsum (map f l) + zsum (map g l).
  Proof. induction l as [|x l IH]; [reflexivity|]. unfold zsum in *. cbn [map fold_right]. lia. Qed.

  Lemma deg_total net ui uo : reachable net -> zsum (map (deg_of net ui uo) (nodes net)) = (if ui || uo then 1 else 2) * Z.of_nat (length (edges net)).
  Proof.
    intros Hr. destruct (reachable_R net Hr) as [g HR]. assert (Hnd : NoDup (nodes net)) by exact (R_NoDup _ _ HR). pose proof (edges_R net g HR) as Hp.
    assert (Hends : forall e, In e (edges net) -> In (fst (fst e)) (nodes net) /\ In (snd (fst e)) (nodes net)).
    { intros e He. rewrite (nodes_R net g HR). apply (Permutation_in _ Hp) in He. destruct HR as [_ [_ Hok]]. apply (Hok e He). }
    pose proof (group_lengths (fun e => snd (fst e)) (nodes net) (edges net) Hnd ltac:(intros e He; apply Hends; assumption)) as Hi.
    pose proof (group_lengths (fun e => fst (fst e)) (nodes net) (edges net) Hnd ltac:(intros e He; apply Hends; assumption)) as Ho.
    unfold deg_of. destruct ui; [cbn [orb]; rewrite Hi; lia|]. destruct uo; [cbn [orb]; rewrite Ho; lia|]. cbn [orb]. rewrite zsum_map_add, Hi, Ho. lia.
  Qed.

  Lemma distribution_spec net ui uo : reachable net -> nodes net <> [] ->
    exists m, (exists v, In v (nodes net) /\ deg_of net ui uo v = m) /\ (forall v, In v (nodes net) -> deg_of net ui uo v <= m) /\
      degree_distribution net ui uo = Ok (map (fun i => (i, num (Z.eqb i) (map (deg_of net ui uo) (nodes net)))) (zrange 1 (m + 1))).
  Proof.
    intros Hr Hne. set (l := map (deg_of net ui uo) (nodes net)).
    assert (E : rfold (fun counts node => d <- dd_degree net ui uo node ;; dd_count counts d) (nodes net) [] = rfold dd_count l []).
    { unfold l. assert (G : forall vs c, incl vs (nodes net) -> rfold (fun counts node => d <- dd_degree net ui uo node ;; dd_count counts d) vs c = rfold dd_count (map (deg_of net ui uo) vs) c).
      { induction vs as [|v vs IH]; intros c Hi; [reflexivity|]. cbn [map rfold]. rewrite (dd_degree_ok net ui uo v Hr) by (apply Hi; left; reflexivity). cbn [rbind]. destruct (dd_count c (deg_of net ui uo v)) as [c'|e]; [|reflexivity]. cbn [rbind]. apply IH. intros x Hx. apply Hi. right. assumption. }
      apply G. apply incl_refl. }
    destruct (dd_counts l []) as (c & Ec & Hg & Hk). unfold degree_distribution. rewrite E, Ec. cbn [rbind]. unfold dd_max. destruct (dkeys c) as [|d ds] eqn:Ek.
    - exfalso. destruct (nodes net) as [|v vs] eqn:En; [congruence|]. apply (proj2 (Hk (deg_of net ui uo v))). right. unfold l. left. reflexivity.
    - cbn [rbind]. destruct (zmax_fold ds d) as [Hin Hmax]. exists (fold_left Z.max ds d). apply Hk in Hin. destruct Hin as [[]|Hin]. unfold l in Hin. apply in_map_iff in Hin. destruct Hin as (v & Ev & Hv).
      split; [exists v; auto|]. split.
      + intros w Hw. apply Hmax, Hk. right. unfold l. apply in_map. assumption.
      + f_equal. apply map_ext. intros i. f_equal. specialize (Hg i). unfold getz in Hg. rewrite Hg. cbn. lia.
  Qed.
End Degrees.

(** ** pictures *)
Lemma chunks_length {A} k c (l : list A) : length (chunks k c l) = k.
Proof. revert l. induction k as [|k IH]; intros l; [reflexivity|]. cbn [chunks length]. rewrite IH. reflexivity. Qed.
Lemma skipn_add {A} a b (l : list A) : skipn a (skipn b l) = skipn (b + a) l.
Proof. revert l. induction b as [|b IH]; intros l; [reflexivity|]. destruct l; [rewrite !skipn_nil; reflexivity|]. cbn [skipn Nat.add]. apply IH. Qed.
Lemma chunks_nth {A} k c (l : list A) i : (i < k)%nat -> nth_error (chunks k c l) i = Some (firstn c (skipn (i * c) l)).
Proof.
  revert l i. induction k as [|k IH]; intros l i Hi; [lia|]. destruct i as [|i]; [reflexivity|]. cbn [chunks nth_error]. rewrite IH by lia. rewrite skipn_add. reflexivity.
Qed.
Lemma concat_row {A} (rows : list (list A)) w t : (forall r, In r rows -> length r = w) -> (t < length rows)%nat -> Some (firstn w (skipn (t * w) (concat rows))) = nth_error rows t.
Proof.
  revert t. induction rows as [|r rows IH]; intros t Hr Ht; [cbn in Ht; lia|]. pose proof (Hr r (or_introl eq_refl)) as Hw. destruct t as [|t]; cbn [concat nth_error].
  - cbn [Nat.mul skipn]. rewrite firstn_app, Hw, Nat.sub_diag. rewrite firstn_all2 by lia. rewrite firstn_O, app_nil_r. reflexivity.
  - replace (S t * w)%nat with (length r + t * w)%nat by lia. rewrite skipn_app. rewrite skipn_all2 by lia. replace (length r + t * w - length r)%nat with (t * w)%nat by lia. apply IH; [intros x Hx; apply Hr; right; assumption|cbn in Ht; lia].
Qed.
Lemma concat_length {A} (rows : list (list A)) w : (forall r, In r rows -> length r = w) -> length (concat rows) = (length rows * w)%nat.
Proof. induction rows as [|r rows IH]; intros Hr; [reflexivity|]. cbn [concat length]. rewrite app_length, IH by (intros x Hx; apply Hr; right; assumption). rewrite (Hr r (or_introl eq_refl)). lia. Qed.

Lemma next_frame_shown T k : 0 < T -> shown T k = Z.of_nat k mod T.
Proof.
  intros HT. induction k as [|k IH]; [cbn [shown]; rewrite Z.mod_0_l by lia; reflexivity|]. cbn [shown]. rewrite IH. unfold next_frame. rewrite Nat2Z.inj_succ. unfold Z.succ.
  pose proof (Z.mod_pos_bound (Z.of_nat k) T HT) as Hb. rewrite <- (Z.add_mod_idemp_l (Z.of_nat k) 1 T) by lia. destruct (Z.eqb_spec (Z.of_nat k mod T + 1) T) as [-> |Hne]; [rewrite Z.mod_same by lia; reflexivity|]. symmetry. apply Z.mod_small. lia.
Qed.

(** ** series *)
Lemma nth_error_skipn' {A} (l : list A) k i : nth_error (skipn k l) i = nth_error l (k + i).
Proof. apply nth_error_skipn. Qed.

Lemma np_unique_in x l : In x (np_unique l) <-> In x l.
Proof.
  assert (G : forall y r, In x (insert_unique y r) <-> x = y \/ In x r).
  { intros y. induction r as [|z r IH]; cbn [insert_unique]; [cbn; intuition|]. destruct (Z.ltb_spec y z); [cbn; intuition|]. destruct (Z.eqb_spec y z) as [-> |]; [cbn; intuition|]. cbn [In]. rewrite IH. tauto. }
  induction l as [|y l IH]; [reflexivity|]. unfold np_unique in *. cbn [fold_right]. rewrite G, IH. cbn [In]. intuition.
Qed.
Lemma np_unique_asc l : asc (np_unique l).
Proof.
  assert (Gin : forall x y r, In x (insert_unique y r) -> x = y \/ In x r).
  { intros x y. induction r as [|z r IH]; cbn [insert_unique]; [cbn; intuition|]. destruct (Z.ltb_spec y z); [cbn; intuition|]. destruct (Z.eqb_spec y z) as [-> |]; [cbn; intuition|]. cbn [In]. tauto. }
  assert (G : forall y r, asc r -> asc (insert_unique y r)).
  { intros y. induction r as [|z r IH]; intros Ha; cbn [insert_unique]; [apply asc_cons; [apply asc_nil|intros ? []]|]. destruct (Z.ltb_spec y z).
    - apply asc_cons; [assumption|]. apply asc_cons_inv in Ha. intros x [<-|Hx]; [assumption|]. destruct Ha as [_ Ha]. specialize (Ha x Hx). lia.
    - destruct (Z.eqb_spec y z); [assumption|]. apply asc_cons_inv in Ha. destruct Ha as [Ha1 Ha2]. apply asc_cons; [apply IH; assumption|]. intros x Hx. apply Gin in Hx. destruct Hx as [-> |Hx]; [lia|apply Ha2; assumption]. }
  induction l as [|y l IH]; [apply asc_nil|]. unfold np_unique. cbn [fold_right]. apply G. exact IH.
Qed.
