(** Distances, labels, largest entries and tours *)
From Coq Require Import Reals Lra Permutation.
From Verif Require Import Py PyFacts ListFacts Network Topology Evolve Lattice LatticeProofs TspSpec Tsp.
Open Scope string_scope.
Open Scope list_scope.
Open Scope Z_scope.

(** ** sums *)
Lemma Rtotal_app l l' : Rtotal (l ++ l') = (Rtotal l + Rtotal l')%R.
Proof. induction l as [|x l IH]; [unfold Rtotal; cbn; lra|]. cbn [app]. unfold Rtotal in *. cbn [fold_right]. rewrite IH. lra. Qed.
Lemma Rtotal_perm l l' : Permutation l l' -> Rtotal l = Rtotal l'.
Proof. induction 1; unfold Rtotal in *; cbn [fold_right]; lra. Qed.
Lemma Rtotal_left l : forall a, fold_left Rplus l a = (a + Rtotal l)%R.
Proof. induction l as [|x l IH]; intros a; unfold Rtotal in *; cbn [fold_left fold_right]; [lra|]. rewrite IH. lra. Qed.
Lemma Rtotal_ext {X} (f g : X -> R) l : (forall x, In x l -> f x = g x) -> Rtotal (map f l) = Rtotal (map g l).
Proof. intros Hx. f_equal. apply map_ext_in. assumption. Qed.
Lemma Rtotal_flat {X Y} (f : X -> list Y) (g : Y -> R) l : Rtotal (map g (flat_map f l)) = Rtotal (map (fun x => Rtotal (map g (f x))) l).
Proof. induction l as [|x l IH]; [reflexivity|]. cbn [flat_map]. rewrite map_app, Rtotal_app, IH. reflexivity. Qed.
Lemma Rtotal_zero {X} (l : list X) : Rtotal (map (fun _ => 0%R) l) = 0%R.
Proof. induction l as [|x l IH]; [reflexivity|]. unfold Rtotal in *. cbn [map fold_right]. rewrite IH. lra. Qed.
Lemma Rtotal_one n k (f : Z -> R) : 0 <= k < n -> Rtotal (map (fun x => if Z.eq_dec x k then f x else 0%R) (zrange 0 n)) = f k.
Proof.
  intros Hk. rewrite (zrange_split 0 k n), (zrange_cons k) by lia. rewrite map_app, Rtotal_app. cbn [map]. change (Rtotal (?a :: ?l)) with (a + Rtotal l)%R. destruct (Z.eq_dec k k); [|contradiction].
  rewrite (Rtotal_ext _ (fun _ => 0%R) (zrange 0 k)), (Rtotal_ext _ (fun _ => 0%R) (zrange (k + 1) n)), !Rtotal_zero; [lra| |]; intros x Hx; apply in_zrange in Hx; destruct (Z.eq_dec x k); [lia|reflexivity|lia|reflexivity].
Qed.

(** ** points *)
Lemma py_nth_at {A} (l : list A) (d : A) i : 0 <= i < Z.of_nat (length l) -> py_nth l i = Some (nth (Z.to_nat i) l d).
Proof.
  intros Hi. unfold py_nth. rewrite <- (Z2Nat.id i) at 1 by lia. rewrite py_index_nonneg by lia. apply nth_error_nth'. lia.
Qed.

Lemma between_euclid p q : between p q = euclid p q.
Proof. unfold between, euclid, Rsqr. f_equal. ring. Qed.
Lemma euclid_sym p q : euclid p q = euclid q p.
Proof. unfold euclid, Rsqr. f_equal. ring. Qed.
Lemma euclid_refl p : euclid p p = 0%R.
Proof. unfold euclid, Rsqr. rewrite <- sqrt_0. f_equal. ring. Qed.

Lemma rfold_collect {A B} (f : list B -> A -> res (list B)) (g : A -> list B) l : (forall x acc, In x l -> f acc x = Ok (acc ++ g x)) -> forall acc, rfold f l acc = Ok (acc ++ flat_map g l).
Proof.
  induction l as [|x l IH]; intros Hf acc; cbn [rfold flat_map]; [rewrite app_nil_r; reflexivity|]. rewrite Hf by (left; reflexivity). cbn [rbind]. rewrite IH by (intros; apply Hf; right; assumption). rewrite <- app_assoc. reflexivity.
Qed.

Definition pairs (points : list point) : list (Z * Z * R) :=
  flat_map (fun i => map (fun j => (i, j, euclid (pt points i) (pt points j))) (zrange (i + 1) (Z.of_nat (length points)))) (zrange 0 (Z.of_nat (length points) - 1)).

Lemma get_distances_eq points : get_distances points = Ok (pairs points).
Proof.
  unfold get_distances, pairs. cbn zeta. rewrite (rfold_collect _ (fun i => map (fun j => (i, j, euclid (pt points i) (pt points j))) (zrange (i + 1) (Z.of_nat (length points))))); [reflexivity|].
  intros i acc Hi. apply in_zrange in Hi. rewrite (py_nth_at points origin i) by lia. cbn [of_opt rbind]. rewrite (rfold_collect _ (fun j => [(i, j, euclid (pt points i) (pt points j))])).
  - reflexivity.
  - intros j acc' Hj. apply in_zrange in Hj. rewrite (py_nth_at points origin j) by lia. cbn [of_opt rbind]. rewrite between_euclid. reflexivity.
Qed.

(** ** the distance map *)
Definition touches (a b i j : Z) : Prop := (i = a \/ i = b) /\ (j = a \/ j = b).

Lemma distances_map_get (f : Z -> Z -> R) ds : (forall i, f i i = 0%R) -> (forall i j, f i j = f j i) -> (forall a b d, In (a, b, d) ds -> d = f a b) ->
  (forall i j, (exists a b d, In (a, b, d) ds /\ touches a b i j) -> dget (get_distances_map ds) (i, j) = Some (f i j)) /\
  (forall i j, ~ (exists a b d, In (a, b, d) ds /\ touches a b i j) -> dget (get_distances_map ds) (i, j) = None).
Proof.
  intros Hd Hs. induction ds as [|[[a b] d] ds IH] using rev_ind; intros Hf.
  - split; [intros i j (a & b & d & [] & _)|reflexivity].
  - destruct IH as [IH1 IH2]; [intros x y z Hx; apply Hf, in_app_iff; auto|]. unfold get_distances_map in *. rewrite fold_left_app. cbn [fold_left]. set (m := fold_left _ ds []) in *. clearbody m.
    assert (Ed : d = f a b) by (apply Hf, in_app_iff; right; left; reflexivity). subst d.
    assert (Hcase : forall i j, dget (dset (dset (dset (dset m (a, b) (f a b)) (b, a) (f a b)) (a, a) 0%R) (b, b) 0%R) (i, j) = if ((i =? a) || (i =? b)) && ((j =? a) || (j =? b)) then Some (f i j) else dget m (i, j)).
    { intros i j. rewrite !dget_dset. destruct (eqd (i, j) (b, b)) as [E|N1]; [injection E as -> ->; rewrite Z.eqb_refl, orb_true_r, Hd; reflexivity|].
      destruct (eqd (i, j) (a, a)) as [E|N2]; [injection E as -> ->; rewrite Z.eqb_refl, Hd; reflexivity|].
      destruct (eqd (i, j) (b, a)) as [E|N3]; [injection E as -> ->; rewrite !Z.eqb_refl, orb_true_r, Hs; reflexivity|].
      destruct (eqd (i, j) (a, b)) as [E|N4]; [injection E as -> ->; rewrite !Z.eqb_refl, orb_true_r; reflexivity|].
      destruct (Z.eqb_spec i a), (Z.eqb_spec i b), (Z.eqb_spec j a), (Z.eqb_spec j b); cbn; congruence. }
    assert (Ht : forall i j, ((i =? a) || (i =? b)) && ((j =? a) || (j =? b)) = true <-> touches a b i j) by (intros i j; unfold touches; lia).
    split; intros i j Hx; rewrite Hcase; destruct (((i =? a) || (i =? b)) && ((j =? a) || (j =? b)))%bool eqn:Eij.
    + reflexivity.
    + apply IH1. destruct Hx as (x & y & z & Hi & Hxy). apply in_app_iff in Hi. destruct Hi as [Hi|[Hi|[]]]; [eauto 6|]. injection Hi as <- <- <-. apply Ht in Hxy. congruence.
    + exfalso. apply Hx. exists a, b, (f a b). split; [apply in_app_iff; right; left; reflexivity|apply Ht; assumption].
    + apply IH2. intros (x & y & z & Hi & Hxy). apply Hx. exists x, y, z. split; [apply in_app_iff; auto|assumption].
Qed.

Lemma in_pairs points a b d : In (a, b, d) (pairs points) <-> 0 <= a < b /\ b < Z.of_nat (length points) /\ d = euclid (pt points a) (pt points b).
Proof.
  unfold pairs. rewrite in_flat_map. split.
  - intros (i & Hi & Hx). apply in_zrange in Hi. apply in_map_iff in Hx. destruct Hx as (j & E & Hj). apply in_zrange in Hj. injection E as <- <- <-. split; [lia|]. split; [lia|reflexivity].
  - intros (Ha & Hb & ->). exists a. split; [apply in_zrange; lia|]. apply in_map_iff. exists b. split; [reflexivity|apply in_zrange; lia].
Qed.

Lemma distances_map_spec points i j : let n := Z.of_nat (length points) in
  dget (get_distances_map (pairs points)) (i, j) = if (2 <=? n) && ((0 <=? i) && (i <? n)) && ((0 <=? j) && (j <? n)) then Some (euclid (pt points i) (pt points j)) else None.
Proof.
  intros n. destruct (distances_map_get (fun i j => euclid (pt points i) (pt points j)) (pairs points)) as [H1 H2].
  - intros. apply euclid_refl.
  - intros. apply euclid_sym.
  - intros a b d Hi. apply in_pairs in Hi. tauto.
  - destruct ((2 <=? n) && ((0 <=? i) && (i <? n)) && ((0 <=? j) && (j <? n)))%bool eqn:E.
    + apply H1. assert (Hb : 2 <= n /\ 0 <= i < n /\ 0 <= j < n) by lia. clear E. destruct (Z.lt_trichotomy i j) as [Hx|[-> |Hx]].
      * exists i, j, (euclid (pt points i) (pt points j)). rewrite in_pairs. unfold touches. fold n. repeat split; auto; lia.
      * destruct (Z.eq_dec j 0) as [-> |].
        -- exists 0, 1, (euclid (pt points 0) (pt points 1)). rewrite in_pairs. unfold touches. fold n. repeat split; auto; lia.
        -- exists 0, j, (euclid (pt points 0) (pt points j)). rewrite in_pairs. unfold touches. fold n. repeat split; auto; lia.
      * exists j, i, (euclid (pt points j) (pt points i)). rewrite in_pairs. unfold touches. fold n. repeat split; auto; lia.
    + apply H2. intros (a & b & d & Hi & Hti & Htj). apply in_pairs in Hi. fold n in Hi. lia.
Qed.

(** ** labels and coordinates *)
Lemma number_items {B} (l : list B) : forall (m : dict Z B) k, (forall x, In x (dkeys m) -> x < k) ->
  fold_left (fun s x => (dset (fst s) (snd s) x, snd s + 1)) l (m, k) = (m ++ combine (zrange k (k + Z.of_nat (length l))) l, k + Z.of_nat (length l)).
Proof.
  induction l as [|x l IH]; intros m k Hm; cbn [fold_left length fst snd].
  - rewrite zrange_nil by lia. cbn. rewrite app_nil_r. f_equal. lia.
  - rewrite dset_new by (intros Hx; apply Hm in Hx; lia). rewrite IH.
    + rewrite (zrange_cons k) by lia. cbn [combine]. rewrite <- app_assoc. cbn [app]. replace (k + 1 + Z.of_nat (length l)) with (k + Z.of_nat (Datatypes.S (length l))) by lia. reflexivity.
    + intros y Hy. rewrite dkeys_app in Hy. apply in_app_iff in Hy. destruct Hy as [Hy|[<-|[]]]; [apply Hm in Hy; lia|cbn; lia].
Qed.

Lemma fold_left_flat {A B S} (f : S -> B -> S) (g : A -> list B) l : forall s, fold_left f (flat_map g l) s = fold_left (fun s x => fold_left f (g x) s) l s.
Proof. induction l as [|x l IH]; intros s; [reflexivity|]. cbn [flat_map fold_left]. rewrite fold_left_app. apply IH. Qed.
Lemma fold_left_map {A B S} (f : S -> B -> S) (g : A -> B) l : forall s, fold_left f (map g l) s = fold_left (fun s x => f s (g x)) l s.
Proof. induction l as [|x l IH]; intros s; [reflexivity|]. cbn [map fold_left]. apply IH. Qed.
Lemma combine_map_self {A B} (f : A -> B) l : combine l (map f l) = map (fun x => (x, f x)) l.
Proof. induction l as [|x l IH]; [reflexivity|]. cbn. f_equal. assumption. Qed.
Lemma cell_divmod m u x : 0 <= x < m -> (u * m + x) / m = u /\ (u * m + x) mod m = x.
Proof. intros Hx. split; [rewrite Z.add_comm, Z.div_add by lia; rewrite Z.div_small by lia; lia|rewrite Z.add_comm, Z.mod_add by lia; apply Z.mod_small; lia]. Qed.

Lemma labels_eq points : let n := Z.of_nat (length points) in get_node_label_map points = map (fun k => (k, (k / n, k mod n))) (zrange 0 (n * n)).
Proof.
  intros n. unfold get_node_label_map. fold n.
  assert (E : forall s, fold_left (fun s current_point => fold_left (fun s k => (dset (fst s) (snd s) (current_point, k), snd s + 1)) (zrange 0 n) s) (zrange 0 n) s =
     fold_left (fun s x => (dset (fst s) (snd s) x, snd s + 1)) (flat_map (fun r => map (fun c => (r, c)) (zrange 0 n)) (zrange 0 n)) s).
  { intros s. rewrite fold_left_flat. generalize (zrange 0 n) at 2 4 as l. induction l as [|r l IH] in s |- *; [reflexivity|]. cbn [fold_left]. rewrite fold_left_map. apply IH. }
  cbn zeta. rewrite E. clear E. rewrite number_items by (intros x []). cbn [fst app].
  destruct (Z.eq_dec n 0) as [E0|Hn]; [rewrite E0; reflexivity|].
  assert (Ef : flat_map (fun r => map (fun c => (r, c)) (zrange 0 n)) (zrange 0 n) = map (fun k => (k / n, k mod n)) (zrange 0 (n * n))).
  { rewrite <- zrange_product by lia. rewrite TopologyProofs3.map_flat_map. apply TopologyProofs3.flat_map_ext_in. intros r Hr. rewrite map_map. apply map_ext_in. intros c Hc. apply in_zrange in Hc. destruct (cell_divmod n r c Hc) as [-> ->]. reflexivity. }
  rewrite Ef, map_length, length_zrange. replace (0 + Z.of_nat (Z.to_nat (n * n - 0))) with (n * n) by nia. apply combine_map_self.
Qed.

Lemma dget_map_self {B} (f : Z -> B) l k : In k l -> dget (map (fun k => (k, f k)) l) k = Some (f k).
Proof.
  induction l as [|x l IH]; intros Hk; [destruct Hk|]. cbn [map dget]. destruct (eqd k x) as [-> |Hne]; [reflexivity|]. destruct Hk as [-> |Hk]; [contradiction|]. apply IH. assumption.
Qed.

Lemma label_get points k : let n := Z.of_nat (length points) in 0 <= k < n * n -> dget (get_node_label_map points) k = Some (k / n, k mod n).
Proof. intros n Hk. rewrite labels_eq. fold n. apply (dget_map_self (fun k => (k / n, k mod n))). apply in_zrange. assumption. Qed.

Lemma coord_get points r c : let n := Z.of_nat (length points) in 0 <= r < n -> 0 <= c < n -> dget (get_coordinate_map (get_node_label_map points)) (r, c) = Some (r * n + c).
Proof.
  intros n Hr Hc. rewrite labels_eq. fold n. unfold get_coordinate_map. rewrite fold_left_map. cbn [fst snd].
  assert (Hg : forall l (m : dict (Z * Z) Z), NoDup l -> (forall k, In k l -> 0 <= k) -> dget (fold_left (fun m k => dset m (k / n, k mod n) k) l m) (r, c) = if in_dec Z.eq_dec (r * n + c) l then Some (r * n + c) else dget m (r, c)).
  { induction l as [|k l IH]; intros m Hn Hk; [reflexivity|]. apply NoDup_cons_iff in Hn. destruct Hn as [Hx Hn]. cbn [fold_left]. rewrite IH by (try assumption; intros; apply Hk; right; assumption).
    destruct (in_dec Z.eq_dec (r * n + c) l) as [Hi|Hi]; destruct (in_dec Z.eq_dec (r * n + c) (k :: l)) as [Hj|Hj]; try reflexivity; [exfalso; apply Hj; right; assumption| |].
    - destruct Hj as [-> |Hj]; [|contradiction]. destruct (cell_divmod n r c Hc) as [-> ->]. rewrite dget_dset. destruct (eqd (r, c) (r, c)); [reflexivity|contradiction].
    - rewrite dget_dset. destruct (eqd (r, c) (k / n, k mod n)) as [E|]; [|reflexivity]. exfalso. injection E as E1 E2. apply Hj. left. pose proof (Z.div_mod k n ltac:(lia)). rewrite <- E1, <- E2 in *. lia. }
  rewrite Hg; [|apply NoDup_zrange|intros k Hk; apply in_zrange in Hk; lia]. destruct (in_dec Z.eq_dec (r * n + c) (zrange 0 (n * n))) as [Hi|Hi]; [reflexivity|]. exfalso. apply Hi, in_zrange. nia.
Qed.

(** ** argmax *)
Lemma argmax_from_spec l : forall i best v, 0 <= best < i ->
  exists w, argmax_from i best v l = best /\ w = v /\ (forall j x, nth_error l j = Some x -> (x <= v)%R) \/
    exists j, argmax_from i best v l = i + Z.of_nat j /\ nth_error l j = Some w /\ (v < w)%R /\ forall j' x, nth_error l j' = Some x -> (x <= w)%R /\ ((j' < j)%nat -> (x < w)%R).
Proof.
  induction l as [|y l IH]; intros i best v Hb; cbn [argmax_from].
  - exists v. left. split; [reflexivity|]. split; [reflexivity|]. intros [|j] x E; discriminate.
  - destruct (Rlt_dec v y) as [Hlt|Hge].
    + destruct (IH (i + 1) i y ltac:(lia)) as (w & [(E & -> & Hx)|(j & E & Ej & Hw & Hx)]).
      * exists y. right. exists 0%nat. split; [lia|]. split; [reflexivity|]. split; [assumption|]. intros [|j'] x Ex; cbn in Ex; [injection Ex as <-; split; [lra|lia]|]. split; [eapply Hx; eassumption|lia].
      * exists w. right. exists (Datatypes.S j). split; [lia|]. split; [assumption|]. split; [lra|]. intros [|j'] x Ex; cbn in Ex; [injection Ex as <-; split; [lra|intros _; lra]|]. destruct (Hx j' x Ex) as [H1 H2]. split; [assumption|]. intros Hj. apply H2. lia.
    + destruct (IH (i + 1) best v ltac:(lia)) as (w & [(E & -> & Hx)|(j & E & Ej & Hw & Hx)]).
      * exists v. left. split; [assumption|]. split; [reflexivity|]. intros [|j'] x Ex; cbn in Ex; [injection Ex as <-; lra|eapply Hx; eassumption].
      * exists w. right. exists (Datatypes.S j). split; [lia|]. split; [assumption|]. split; [lra|]. intros [|j'] x Ex; cbn in Ex; [injection Ex as <-; split; [lra|intros _; lra]|]. destruct (Hx j' x Ex) as [H1 H2]. split; [assumption|]. intros Hj. apply H2. lia.
Qed.

Lemma is_argmax_unique row a b : is_argmax row a -> is_argmax row b -> a = b.
Proof.
  intros (v & Ha & Ea & Hv) (w & Hb & Eb & Hw). destruct (Hv _ _ Eb) as [H1 H2]. destruct (Hw _ _ Ea) as [H3 H4]. rewrite Z2Nat.id in H2, H4 by lia.
  destruct (Z.lt_trichotomy a b) as [Hx|[Hx|Hx]]; [specialize (H4 Hx); lra|assumption|specialize (H2 Hx); lra].
Qed.

Lemma argmax_ok row k : argmax row = Ok k <-> is_argmax row k.
Proof.
  assert (H : forall k, argmax row = Ok k -> is_argmax row k).
  { clear k. intros k. destruct row as [|x l]; [discriminate|]. cbn [argmax]. intros E. injection E as <-. destruct (argmax_from_spec l 1 0 x ltac:(lia)) as (w & [(E & -> & Hx)|(j & E & Ej & Hw & Hx)]); rewrite E.
    - exists x. split; [lia|]. split; [reflexivity|]. intros [|i] y Ey; cbn in Ey; [injection Ey as <-; split; [lra|lia]|]. split; [eapply Hx; eassumption|lia].
    - exists w. split; [lia|]. split; [replace (Z.to_nat (1 + Z.of_nat j)) with (Datatypes.S j) by lia; assumption|]. intros [|i] y Ey; cbn in Ey; [injection Ey as <-; split; [lra|intros _; lra]|]. destruct (Hx i y Ey) as [H1 H2]. split; [assumption|]. intros Hi. apply H2. lia. }
  split; [apply H|]. intros Hk. destruct (argmax row) as [k'|e] eqn:E; [f_equal; apply (is_argmax_unique row); [apply H; reflexivity|assumption]|]. destruct row; [|discriminate]. destruct Hk as (v & _ & Ev & _). destruct (Z.to_nat k); discriminate.
Qed.

Lemma argmax_empty : argmax [] = Err ValueError.
Proof. reflexivity. Qed.

Lemma is_argmax_range row k : is_argmax row k -> 0 <= k < Z.of_nat (length row).
Proof. intros (v & Hk & Ev & _). assert (Hl : (Z.to_nat k < length row)%nat) by (apply nth_error_Some; congruence). lia. Qed.

(** ** the order of the tour *)
Definition claim (order : dict Z Z) (ir : nat * list R) : res (dict Z Z) :=
  tour_index <- argmax (snd ir) ;;
  if dmem order tour_index then Err (Raise "a point has already claimed a position in the tour") else Ok (dset order tour_index (Z.of_nat (fst ir))).

Lemma claim_ok M ps : Forall2 is_argmax M ps -> forall k order, NoDup (dkeys order ++ ps) ->
  rfold claim (combine (seq k (length M)) M) order = Ok (order ++ combine ps (zrange (Z.of_nat k) (Z.of_nat (k + length M)))).
Proof.
  induction 1 as [|row p M ps Hp _ IH]; intros k order Hn; cbn [length seq combine rfold].
  - rewrite app_nil_r. reflexivity.
  - unfold claim at 1. cbn [fst snd]. rewrite (proj2 (argmax_ok row p) Hp). cbn [rbind].
    assert (Hp' : ~ In p (dkeys order)) by (apply NoDup_remove_2 in Hn; intros Hx; apply Hn, in_app_iff; auto). rewrite (proj2 (dmem_false order p) Hp'). cbn [rbind]. rewrite dset_new by assumption. rewrite IH.
    + rewrite (zrange_cons (Z.of_nat k)) by lia. cbn [combine]. rewrite <- app_assoc. cbn [app]. replace (Z.of_nat (Datatypes.S k)) with (Z.of_nat k + 1) by lia. replace (Z.of_nat (Datatypes.S k + length M)) with (Z.of_nat (k + Datatypes.S (length M))) by lia. reflexivity.
    + rewrite dkeys_app, <- app_assoc. exact Hn.
Qed.

Lemma claim_dup M ps : Forall2 is_argmax M ps -> forall k order, NoDup (dkeys order) -> ~ NoDup (dkeys order ++ ps) ->
  rfold claim (combine (seq k (length M)) M) order = Err (Raise "a point has already claimed a position in the tour").
Proof.
  induction 1 as [|row p M ps Hp _ IH]; intros k order Ho Hn; cbn [length seq combine rfold]; [rewrite app_nil_r in Hn; contradiction|].
  unfold claim at 1. cbn [fst snd]. rewrite (proj2 (argmax_ok row p) Hp). cbn [rbind]. destruct (dmem order p) eqn:Em; [reflexivity|]. apply dmem_false in Em. cbn [rbind]. apply IH.
  - apply NoDup_dset. assumption.
  - rewrite dset_new by assumption. rewrite dkeys_app, <- app_assoc. exact Hn.
Qed.

Lemma claim_inv M : forall k order order', NoDup (dkeys order) -> rfold claim (combine (seq k (length M)) M) order = Ok order' -> exists ps, Forall2 is_argmax M ps /\ NoDup (dkeys order ++ ps).
Proof.
  induction M as [|row M IH]; intros k order order' Ho E; cbn [length seq combine rfold] in E.
  - exists []. split; [constructor|rewrite app_nil_r; assumption].
  - unfold claim at 1 in E. cbn [fst snd] in E. destruct (argmax row) as [p|] eqn:Ep; [|discriminate]. cbn [rbind] in E. destruct (dmem order p) eqn:Em; [discriminate|]. cbn [rbind] in E. apply dmem_false in Em.
    destruct (IH _ _ _ (NoDup_dset _ _ _ Ho) E) as (ps & Hf & Hn). exists (p :: ps). split; [constructor; [apply argmax_ok; assumption|assumption]|]. rewrite dset_new, dkeys_app, <- app_assoc in Hn by assumption. exact Hn.
Qed.

(** ** the edges *)
Section Edges.
  Variables (points : list point) (order : dict Z Z).
  Notation n := (Z.of_nat (length points)).
  Definition visit (s : ugraph * list R) (e : Z * Z) : res (ugraph * list R) :=
    let (tour_index, from_index) := e : Z * Z in
    to_index <- of_opt KeyError (dget order ((tour_index + 1) mod n)) ;;
    from_point <- of_opt IndexError (py_nth points from_index) ;;
    to_point <- of_opt IndexError (py_nth points to_index) ;;
    Ok (ug_add_edge (fst s) from_index to_index, snd s ++ [between from_point to_point]).
  Definition at_ (t : Z) : Z := match dget order t with Some p => p | None => 0 end.

  Lemma visit_ok l : (forall t p, In (t, p) l -> 0 <= p < n /\ exists q, dget order ((t + 1) mod n) = Some q /\ 0 <= q < n) -> forall G ds,
    rfold visit l (G, ds) = Ok (fold_left (fun G e => ug_add_edge G (fst e) (snd e)) (map (fun tp => (snd tp, at_ ((fst tp + 1) mod n))) l) G,
      ds ++ map (fun tp => euclid (pt points (snd tp)) (pt points (at_ ((fst tp + 1) mod n)))) l).
  Proof.
    induction l as [|[t p] l IH]; intros Hl G ds; cbn [rfold map fold_left]; [rewrite app_nil_r; reflexivity|]. destruct (Hl t p (or_introl eq_refl)) as (Hp & q & Eq & Hq). unfold visit at 1. rewrite Eq. cbn [of_opt rbind].
    rewrite (py_nth_at points origin p), (py_nth_at points origin q) by assumption. cbn [of_opt rbind fst snd]. rewrite IH by (intros; apply Hl; right; assumption). replace (at_ ((t + 1) mod n)) with q by (unfold at_; rewrite Eq; reflexivity). rewrite <- app_assoc, between_euclid. reflexivity.
  Qed.

  Lemma visit_inv l : forall s s', rfold visit l s = Ok s' -> forall t p, In (t, p) l -> exists q, dget order ((t + 1) mod n) = Some q.
  Proof.
    induction l as [|[t p] l IH]; intros s s' E t' p' Hi; [destruct Hi|]. cbn [rfold] in E. destruct (visit s (t, p)) as [s1|] eqn:E1; [|discriminate]. cbn [rbind] in E. destruct Hi as [Hi|Hi]; [|eapply IH; eassumption].
    injection Hi as -> ->. unfold visit in E1. destruct (dget order ((t' + 1) mod n)) as [q|]; [eauto|discriminate].
  Qed.
End Edges.

Lemma in_combine_map {A B} (l : list A) (l' : list B) : length l = length l' -> map fst (combine l l') = l.
Proof. revert l'. induction l as [|x l IH]; intros [|y l'] Hl; try discriminate; [reflexivity|]. cbn. f_equal. apply IH. cbn in Hl. lia. Qed.
Lemma in_combine_map2 {A B} (l : list A) (l' : list B) : length l = length l' -> map snd (combine l l') = l'.
Proof. revert l'. induction l as [|x l IH]; intros [|y l'] Hl; try discriminate; [reflexivity|]. cbn. f_equal. apply IH. cbn in Hl. lia. Qed.

(** positions closed under "next" are all positions *)
Lemma closed_positions n ps : 0 < n -> ps <> [] -> (forall t, In t ps -> In ((t + 1) mod n) ps) -> incl (zrange 0 n) ps.
Proof.
  intros Hn Hne Hc. destruct ps as [|t0 ps']; [congruence|]. set (ps := t0 :: ps') in *. set (s := (t0 + 1) mod n). assert (Hs : In s ps) by (apply Hc; left; reflexivity). assert (Hsr : 0 <= s < n) by (apply Z.mod_pos_bound; assumption).
  assert (Hup : forall k, 0 <= k -> In ((s + k) mod n) ps).
  { intros k Hk. revert k Hk. apply natlike_ind; [rewrite Z.add_0_r, Z.mod_small by assumption; assumption|]. intros k Hk IH. apply Hc in IH. rewrite Zplus_mod_idemp_l in IH. replace (s + Z.succ k) with (s + k + 1) by lia. assumption. }
  intros x Hx. apply in_zrange in Hx. specialize (Hup ((x - s) mod n) ltac:(apply Z.mod_pos_bound; assumption)). rewrite Zplus_mod_idemp_r in Hup. replace (s + (x - s)) with x in Hup by lia. rewrite Z.mod_small in Hup by assumption. assumption.
Qed.

Lemma next_positions n : 0 < n -> zrange 1 n ++ [0] = map (fun t => (t + 1) mod n) (zrange 0 n).
Proof.
  intros Hn. rewrite (zrange_snoc 0 n), map_app by lia. cbn [map]. replace (n - 1 + 1) with n by lia. rewrite Z.mod_same by lia. f_equal. replace (zrange 1 n) with (map (fun x => x + 1) (zrange 0 (n - 1))) by (rewrite <- zrange_shift; f_equal; lia).
  apply map_ext_in. intros t Ht. apply in_zrange in Ht. symmetry. apply Z.mod_small. lia.
Qed.

Lemma tour_graph_eq points M : get_tour_graph points M =
  if negb (Nat.eqb (length points) (length M)) then Err AssertionError else
  row0 <- of_opt IndexError (py_nth M 0) ;;
  if negb (Nat.eqb (length points) (length row0)) then Err AssertionError else
  order <- rfold claim (enumerate M) [] ;;
  ' (G, distances) <- rfold (visit points order) order (fold_left ug_add_node (zrange 0 (Z.of_nat (length points))) [], []) ;;
  Ok (G, map (fun ip => (Z.of_nat (fst ip), snd ip)) (enumerate points), fold_left Rplus distances 0%R).
Proof. reflexivity. Qed.

Section Tour.
  Variables (points : list point) (M : list (list R)) (ps : list Z).
  Notation n := (Z.of_nat (length points)).
  Hypothesis Hn : 0 < n.
  Hypothesis HM : length M = length points.
  Hypothesis Hps : Forall2 is_argmax M ps.
  Hypothesis Hperm : Permutation ps (zrange 0 n).
  Definition order_of := combine ps (zrange 0 n).
  Definition tour_of := map (at_ order_of) (zrange 0 n).

  Lemma ps_len : length ps = length (zrange 0 n).
  Proof. apply Permutation_length. assumption. Qed.
  Lemma ps_nodup : NoDup ps.
  Proof. eapply Permutation_NoDup; [symmetry; exact Hperm|apply NoDup_zrange]. Qed.
  Lemma order_keys : dkeys order_of = ps.
  Proof. unfold dkeys, order_of. apply in_combine_map, ps_len. Qed.
  Lemma order_vals : map snd order_of = zrange 0 n.
  Proof. unfold order_of. apply in_combine_map2, ps_len. Qed.
  Lemma order_get t : 0 <= t < n -> exists p, dget order_of t = Some p /\ 0 <= p < n.
  Proof.
    intros Ht. destruct (dget_key_some order_of t) as [p Ep]; [rewrite order_keys; eapply Permutation_in; [symmetry; exact Hperm|apply in_zrange; assumption]|]. exists p. split; [assumption|].
    apply dget_some_in in Ep. apply in_zrange. rewrite <- order_vals. change p with (snd (t, p)). apply in_map. assumption.
  Qed.
  Lemma order_at t p : In (t, p) order_of -> at_ order_of t = p.
  Proof. intros Hi. unfold at_. rewrite (dget_in order_of t p); [reflexivity|rewrite order_keys; apply ps_nodup|assumption]. Qed.

  Lemma order_map : order_of = map (fun t => (t, at_ order_of t)) ps.
  Proof.
    transitivity (map (fun t => (t, at_ order_of t)) (dkeys order_of)); [|rewrite order_keys; reflexivity]. unfold dkeys. rewrite map_map. rewrite <- (map_id order_of) at 1. apply map_ext_in. intros [t p] Hi. cbn [fst]. rewrite (order_at t p Hi). reflexivity.
  Qed.

  Lemma tour_perm : Permutation tour_of (zrange 0 n).
  Proof.
    assert (E : zrange 0 n = map (at_ order_of) ps) by (etransitivity; [symmetry; apply order_vals|]; etransitivity; [apply (f_equal (map snd) order_map)|]; rewrite map_map; reflexivity).
    unfold tour_of. transitivity (map (at_ order_of) ps); [apply Permutation_map; symmetry; assumption|rewrite <- E; reflexivity].
  Qed.

  Definition tour_edges := map (fun tp => (snd tp, at_ order_of ((fst tp + 1) mod n))) order_of.

  Lemma tour_graph_run : (exists row0, nth_error M 0 = Some row0 /\ length row0 = length points) ->
    get_tour_graph points M = Ok (ug_of (zrange 0 n) tour_edges, map (fun ip => (Z.of_nat (fst ip), snd ip)) (enumerate points), tour_length points tour_of).
  Proof.
    intros (row0 & E0 & Hrow). rewrite tour_graph_eq. rewrite HM, Nat.eqb_refl. cbn [negb]. replace (py_nth M 0) with (Some row0) by (destruct M; [discriminate|exact (eq_sym E0)]). cbn [of_opt rbind]. rewrite Hrow, Nat.eqb_refl. cbn [negb].
    unfold enumerate at 1. rewrite (claim_ok M ps Hps 0 []) by (cbn; apply ps_nodup). cbn [rbind app Nat.add Z.of_nat]. rewrite HM. fold order_of.
    rewrite visit_ok.
    - cbn [rbind fst snd app]. f_equal. f_equal. rewrite Rtotal_left, Rplus_0_l. unfold tour_length.
      assert (Ec : combine tour_of (skipn 1 tour_of ++ firstn 1 tour_of) = map (fun t => (at_ order_of t, at_ order_of ((t + 1) mod n))) (zrange 0 n)).
      { assert (Er : skipn 1 tour_of ++ firstn 1 tour_of = map (fun t => at_ order_of ((t + 1) mod n)) (zrange 0 n)).
        { rewrite <- (map_map (fun t => (t + 1) mod n) (at_ order_of)), <- next_positions by assumption. unfold tour_of. rewrite (zrange_cons 0 n) by assumption. cbn [map skipn firstn]. rewrite map_app. reflexivity. }
        rewrite Er. unfold tour_of. generalize (zrange 0 n) as l. induction l as [|t l IH]; [reflexivity|]. cbn. f_equal. assumption. }
      rewrite Ec, map_map. cbn [fst snd]. transitivity (Rtotal (map (fun t => euclid (pt points (at_ order_of t)) (pt points (at_ order_of ((t + 1) mod n)))) ps)); [|apply Rtotal_perm, Permutation_map; assumption].
      f_equal. etransitivity; [apply (f_equal (map (fun tp => euclid (pt points (snd tp)) (pt points (at_ order_of ((fst tp + 1) mod n))))) order_map)|]. rewrite map_map. reflexivity.
    - intros t p Hi. split; [apply in_zrange; rewrite <- order_vals; change p with (snd (t, p)); apply in_map; assumption|]. apply order_get. apply Z.mod_pos_bound. assumption.
  Qed.

  Lemma nth_tour k : (k < length points)%nat -> nth_error tour_of k = Some (at_ order_of (Z.of_nat k)).
  Proof. intros Hk. unfold tour_of. rewrite nth_error_map, nth_error_zrange by lia. reflexivity. Qed.
  Lemma len_tour : length tour_of = length points.
  Proof. unfold tour_of. rewrite map_length, length_zrange. lia. Qed.

  Lemma in_tour_edges u v : In (u, v) tour_edges <-> follows tour_of u v.
  Proof.
    assert (Ee : tour_edges = map (fun t => (at_ order_of t, at_ order_of ((t + 1) mod n))) ps) by (unfold tour_edges; etransitivity; [apply (f_equal (map (fun tp => (snd tp, at_ order_of ((fst tp + 1) mod n)))) order_map)|]; rewrite map_map; reflexivity).
    rewrite Ee, in_map_iff. clear Ee. unfold follows. rewrite len_tour. split.
    - intros (t & E & Ht). injection E as <- <-. assert (Hr : 0 <= t < n) by (apply in_zrange; eapply Permutation_in; eassumption). exists (Z.to_nat t). split; [lia|]. rewrite !nth_tour; [|apply Nat.mod_upper_bound; lia|lia].
      rewrite Z2Nat.id by lia. split; [reflexivity|]. do 2 f_equal. rewrite Nat2Z.inj_mod. f_equal. lia.
    - intros (k & Hk & E1 & E2). rewrite nth_tour in E1 by assumption. rewrite nth_tour in E2 by (apply Nat.mod_upper_bound; lia). injection E1 as <-. injection E2 as <-. exists (Z.of_nat k). split.
      + f_equal. f_equal. rewrite Nat2Z.inj_mod. f_equal. lia.
      + eapply Permutation_in; [symmetry; exact Hperm|apply in_zrange; lia].
  Qed.

  (** position k goes to the point whose row is largest at k *)
  Lemma tour_position k p : nth_error tour_of k = Some p <-> exists row, 0 <= p /\ nth_error M (Z.to_nat p) = Some row /\ is_argmax row (Z.of_nat k).
  Proof.
    assert (Hin : forall t q, In (t, q) order_of <-> exists row, 0 <= q /\ nth_error M (Z.to_nat q) = Some row /\ is_argmax row t).
    { intros t q. assert (Hnth : In (t, q) order_of <-> exists j, nth_error ps j = Some t /\ q = Z.of_nat j).
      { unfold order_of. pose proof ps_len as Hl. assert (Hg : forall qs a b, length qs = length (zrange a b) -> In (t, q) (combine qs (zrange a b)) <-> exists j, nth_error qs j = Some t /\ q = a + Z.of_nat j).
        { clear. induction qs as [|x qs IH]; intros a b Hl.
          - cbn. split; [intros []|]. intros (j & E & _). destruct j; discriminate.
          - assert (a < b) by (rewrite length_zrange in Hl; cbn in Hl; lia). rewrite zrange_cons in * by assumption. cbn in Hl. cbn [combine In]. rewrite IH by lia. split.
            + intros [E|(j & E & ->)]; [injection E as -> ->; exists 0%nat; split; [reflexivity|lia]|]. exists (Datatypes.S j). split; [assumption|lia].
            + intros ([|j] & E & ->); [left; cbn in E; injection E as ->; f_equal; lia|]. right. exists j. split; [assumption|lia]. }
        rewrite Hg by assumption. reflexivity. }
      rewrite Hnth. clear Hnth. pose proof Hps as Hf. split.
      - intros (j & Ej & ->). assert (Hrow : exists row, nth_error M j = Some row /\ is_argmax row t).
        { clear - Hf Ej. revert j Ej. induction Hf as [|row p M ps Hp _ IH]; intros [|j] E; try discriminate; cbn in *; [exists row; split; [reflexivity|]; injection E as <-; assumption|auto]. }
        destruct Hrow as (row & Er & Ha). exists row. rewrite Nat2Z.id. split; [lia|]. auto.
      - intros (row & Hq & Er & Ha). exists (Z.to_nat q). split; [|lia]. revert Er Ha. generalize (Z.to_nat q) as j. clear - Hf. induction Hf as [|row' p M ps Hp _ IH]; intros [|j] E Ha; try discriminate; cbn in *; [injection E as ->; f_equal; eapply is_argmax_unique; eassumption|auto]. }
    rewrite <- Hin. split.
    - intros E. assert (Hk : (k < length points)%nat) by (rewrite <- len_tour; apply nth_error_Some; congruence). rewrite nth_tour in E by assumption. destruct (order_get (Z.of_nat k) ltac:(lia)) as (q & Eq & _). unfold at_ in E. rewrite Eq in E. injection E as <-. apply dget_some_in. assumption.
    - intros Hi. assert (Hk : In (Z.of_nat k) ps) by (rewrite <- order_keys; unfold dkeys; change (Z.of_nat k) with (fst (Z.of_nat k, p)); apply in_map; assumption).
      eapply Permutation_in in Hk; [|exact Hperm]. apply in_zrange in Hk. rewrite nth_tour by lia. f_equal. apply order_at. assumption.
  Qed.
End Tour.

Lemma tour_graph_inv points M r : get_tour_graph points M = Ok r ->
  0 < Z.of_nat (length points) /\ length M = length points /\ (exists row0, nth_error M 0 = Some row0 /\ length row0 = length points) /\ exists ps, Forall2 is_argmax M ps /\ Permutation ps (zrange 0 (Z.of_nat (length points))).
Proof.
  intros E. rewrite tour_graph_eq in E. destruct (Nat.eqb_spec (length points) (length M)) as [Hl|]; [|discriminate]. cbn [negb] in E. destruct (py_nth M 0) as [row0|] eqn:E0; [|discriminate]. cbn [of_opt rbind] in E.
  destruct (Nat.eqb_spec (length points) (length row0)) as [Hr|]; [|discriminate]. cbn [negb] in E. assert (E0' : nth_error M 0 = Some row0) by (destruct M; [discriminate|exact E0]). destruct (rfold claim (enumerate M) []) as [order|] eqn:Eo; [|discriminate]. cbn [rbind] in E.
  assert (Hn : 0 < Z.of_nat (length points)) by (destruct M; [discriminate|]; cbn in Hl; lia). split; [assumption|]. split; [lia|]. split; [exists row0; auto|].
  unfold enumerate in Eo. destruct (claim_inv M 0 [] order ltac:(constructor) Eo) as (ps & Hps & Hnd). cbn in Hnd. exists ps. split; [assumption|].
  rewrite (claim_ok M ps Hps 0 [] Hnd) in Eo. assert (Eo' : order = combine ps (zrange 0 (Z.of_nat (length points)))) by (rewrite Hl; injection Eo as <-; reflexivity). clear Eo. subst order.
  destruct (rfold (visit points _) _ _) as [[G ds]|] eqn:Ev; [|discriminate].
  assert (Hlen : length ps = length (zrange 0 (Z.of_nat (length points)))) by (rewrite length_zrange; assert (Hfl : length M = length ps) by (clear - Hps; induction Hps; cbn; congruence); lia).
  assert (Hk : dkeys (combine ps (zrange 0 (Z.of_nat (length points)))) = ps) by (apply in_combine_map; assumption).
  assert (Hcl : incl (zrange 0 (Z.of_nat (length points))) ps).
  { apply closed_positions; [assumption|intros ->; rewrite length_zrange in Hlen; cbn in Hlen; lia|]. intros t Ht. rewrite <- Hk in Ht. unfold dkeys in Ht. apply in_map_iff in Ht. destruct Ht as ([t' p] & Et & Hi). cbn in Et. subst t'.
    destruct (visit_inv _ _ _ _ _ Ev t p Hi) as [q Eq]. apply dget_some_key in Eq. rewrite Hk in Eq. assumption. }
  symmetry. apply NoDup_Permutation_bis; [apply NoDup_zrange|rewrite Hlen; lia|assumption].
Qed.
