(** * C79: the picture of a hexagonal grid *)
From Verif Require Import Py PyFacts ListFacts Topology TopologySpec PropTopology Hexplot.
From Verif Require LatticeProofs TopologyProofs3.
From Coq Require Import Reals Lra Lia Psatz.
Open Scope string_scope.
Open Scope list_scope.
Open Scope R_scope.

(** ** Specification *)
(** the points of the polygon around c: weighted means of its corners. All weights positive: strictly inside. *)
Definition mean_of_corners (w : nat -> R) (c p : R * R) : Prop :=
  let s (f : nat -> R) := f 0%nat + f 1%nat + f 2%nat + f 3%nat + f 4%nat + f 5%nat in
  s w = 1 /\ fst p = fst c + s (fun k => w k * fst (corner k)) /\ snd p = snd c + s (fun k => w k * snd (corner k)).
Definition within (c p : R * R) : Prop := exists w, (forall k, (k < 6)%nat -> 0 <= w k) /\ mean_of_corners w c p.
Definition strictly_within (c p : R * R) : Prop := exists w, (forall k, (k < 6)%nat -> 0 < w k) /\ mean_of_corners w c p.
Definition touching (c c' : R * R) : Prop := exists p, within c p /\ within c' p.
Definition overlapping (c c' : R * R) : Prop := exists p, strictly_within c p /\ strictly_within c' p.
Definition distance (p q : R * R) : R := sqrt ((fst p - fst q) ^ 2 + (snd p - snd q) ^ 2).

(** ** Corners *)
Lemma sqrt3 : 0 < sqrt 3 /\ sqrt 3 * sqrt 3 = 3.
Proof. split; [apply sqrt_lt_R0; lra|apply sqrt_sqrt; lra]. Qed.

Lemma corner_values : corner 0 = (- (sqrt 3 / 2), 1 / 2) /\ corner 1 = (- (sqrt 3 / 2), - (1 / 2)) /\ corner 2 = (0, -1) /\ corner 3 = (sqrt 3 / 2, - (1 / 2)) /\ corner 4 = (sqrt 3 / 2, 1 / 2) /\ corner 5 = (0, 1).
Proof.
  unfold corner. cbn zeta. cbn [INR].
  replace (2 * PI / 6 * 0 + PI / 2 + 60 * (PI / 180)) with (PI - PI / 6) by lra.
  replace (2 * PI / 6 * 1 + PI / 2 + 60 * (PI / 180)) with (PI / 6 + PI) by lra.
  replace (2 * PI / 6 * (1 + 1) + PI / 2 + 60 * (PI / 180)) with (3 * (PI / 2)) by lra.
  replace (2 * PI / 6 * (1 + 1 + 1) + PI / 2 + 60 * (PI / 180)) with (- (PI / 6) + 2 * PI) by lra.
  replace (2 * PI / 6 * (1 + 1 + 1 + 1) + PI / 2 + 60 * (PI / 180)) with (PI / 6 + 2 * PI) by lra.
  replace (2 * PI / 6 * (1 + 1 + 1 + 1 + 1) + PI / 2 + 60 * (PI / 180)) with (PI / 2 + 2 * PI) by lra.
  assert (P : forall x, sin (x + 2 * PI) = sin x /\ cos (x + 2 * PI) = cos x).
  { intros x. pose proof (sin_period x 1) as Hs. pose proof (cos_period x 1) as Hc. cbn [INR] in Hs, Hc. replace (2 * 1 * PI) with (2 * PI) in Hs, Hc by lra. split; assumption. }
  rewrite Rtrigo_facts.cos_pi_minus, sin_PI_x, neg_cos, neg_sin, cos_3PI2, sin_3PI2.
  destruct (P (- (PI / 6))) as [-> ->], (P (PI / 6)) as [-> ->], (P (PI / 2)) as [-> ->]. rewrite cos_neg, sin_neg, cos_PI6, sin_PI6, cos_PI2, sin_PI2. repeat split; reflexivity.
Qed.

Ltac weights H := pose proof (H 0%nat ltac:(lia)); pose proof (H 1%nat ltac:(lia)); pose proof (H 2%nat ltac:(lia)); pose proof (H 3%nat ltac:(lia)); pose proof (H 4%nat ltac:(lia)); pose proof (H 5%nat ltac:(lia)).

Lemma within_bounds c p : within c p -> exists a b, -1 <= a <= 1 /\ -1 <= b <= 1 /\ -1 <= a - b <= 1 /\ fst p = fst c + sqrt 3 / 2 * a /\ snd p = snd c + (b - a / 2).
Proof.
  intros (w & Hw & Hs & Hx & Hy). weights Hw. destruct corner_values as (E0 & E1 & E2 & E3 & E4 & E5). rewrite E0, E1, E2, E3, E4, E5 in Hx, Hy. cbn [fst snd] in Hx, Hy.
  exists (- w 0%nat - w 1%nat + w 3%nat + w 4%nat), (- w 1%nat - w 2%nat + w 4%nat + w 5%nat). split; [lra|]. split; [lra|]. split; [lra|]. split; [rewrite Hx; field|rewrite Hy; field].
Qed.
Lemma strictly_within_bounds c p : strictly_within c p -> exists a b, -1 < a < 1 /\ -1 < b < 1 /\ -1 < a - b < 1 /\ fst p = fst c + sqrt 3 / 2 * a /\ snd p = snd c + (b - a / 2).
Proof.
  intros (w & Hw & Hs & Hx & Hy). weights Hw. destruct corner_values as (E0 & E1 & E2 & E3 & E4 & E5). rewrite E0, E1, E2, E3, E4, E5 in Hx, Hy. cbn [fst snd] in Hx, Hy.
  exists (- w 0%nat - w 1%nat + w 3%nat + w 4%nat), (- w 1%nat - w 2%nat + w 4%nat + w 5%nat). split; [lra|]. split; [lra|]. split; [lra|]. split; [rewrite Hx; field|rewrite Hy; field].
Qed.

(** a centre on the half-integer grid *)
Definition grid (X Y : Z) : R * R := (sqrt 3 / 2 * IZR X, 3 / 2 * IZR Y).

Lemma edge_midpoint i j c : (i < 6)%nat -> (j < 6)%nat -> i <> j -> within c (fst c + (fst (corner i) + fst (corner j)) / 2, snd c + (snd (corner i) + snd (corner j)) / 2).
Proof.
  intros Hi Hj Hij. exists (fun k => if (Nat.eqb k i || Nat.eqb k j)%bool then / 2 else 0). split; [intros k _; destruct (_ || _)%bool; lra|]. unfold mean_of_corners.
  destruct i as [|[|[|[|[|[|i]]]]]]; [| | | | | |lia]; (destruct j as [|[|[|[|[|[|j]]]]]]; [| | | | | |lia]); try lia; cbn [Nat.eqb orb fst snd]; repeat split; field.
Qed.

Lemma half_cancel x y : sqrt 3 / 2 * x = sqrt 3 / 2 * y -> x = y.
Proof. destruct sqrt3 as [Hp _]. intros E. apply Rmult_eq_reg_l in E; lra. Qed.

Lemma touching_bounds X Y X' Y' : touching (grid X Y) (grid X' Y') -> (Z.abs (X - X') <= 2 /\ Z.abs (X - X' + 3 * (Y - Y')) <= 4 /\ Z.abs (X - X' - 3 * (Y - Y')) <= 4)%Z.
Proof.
  intros (p & Hp & Hp'). apply within_bounds in Hp, Hp'. destruct Hp as (a & b & Ha & Hb & Hab & Ex & Ey), Hp' as (a' & b' & Ha' & Hb' & Hab' & Ex' & Ey'). unfold grid in *. cbn [fst snd] in *. rewrite Ex in Ex'. rewrite Ey in Ey'.
  rewrite <- !Rmult_plus_distr_l in Ex'. apply half_cancel in Ex'.
  assert (G : forall z m, - IZR m <= IZR z <= IZR m -> (Z.abs z <= m)%Z). { intros z m [H1 H2]. rewrite <- opp_IZR in H1. apply le_IZR in H1, H2. lia. }
  repeat split; apply G; rewrite ?minus_IZR, ?plus_IZR, ?mult_IZR, ?minus_IZR; lra.
Qed.
Lemma overlapping_bounds X Y X' Y' : overlapping (grid X Y) (grid X' Y') -> (Z.abs (X - X') < 2 /\ Z.abs (X - X' + 3 * (Y - Y')) < 4 /\ Z.abs (X - X' - 3 * (Y - Y')) < 4)%Z.
Proof.
  intros (p & Hp & Hp'). apply strictly_within_bounds in Hp, Hp'. destruct Hp as (a & b & Ha & Hb & Hab & Ex & Ey), Hp' as (a' & b' & Ha' & Hb' & Hab' & Ex' & Ey'). unfold grid in *. cbn [fst snd] in *. rewrite Ex in Ex'. rewrite Ey in Ey'.
  rewrite <- !Rmult_plus_distr_l in Ex'. apply half_cancel in Ex'.
  assert (G : forall z m, - IZR m < IZR z < IZR m -> (Z.abs z < m)%Z). { intros z m [H1 H2]. rewrite <- opp_IZR in H1. apply lt_IZR in H1, H2. lia. }
  repeat split; apply G; rewrite ?minus_IZR, ?plus_IZR, ?mult_IZR, ?minus_IZR; lra.
Qed.
Lemma touching_offsets X Y dx dy : In (dx, dy) [(0, 0); (2, 0); (-2, 0); (1, 1); (-1, 1); (1, -1); (-1, -1)]%Z -> touching (grid X Y) (grid (X + dx) (Y + dy)).
Proof.
  destruct corner_values as (E0 & E1 & E2 & E3 & E4 & E5).
  assert (G : forall i j i' j', (i < 6)%nat -> (j < 6)%nat -> i <> j -> (i' < 6)%nat -> (j' < 6)%nat -> i' <> j' ->
    sqrt 3 / 2 * IZR dx + (fst (corner i') + fst (corner j')) / 2 = (fst (corner i) + fst (corner j)) / 2 -> 3 / 2 * IZR dy + (snd (corner i') + snd (corner j')) / 2 = (snd (corner i) + snd (corner j)) / 2 ->
    touching (grid X Y) (grid (X + dx) (Y + dy))).
  { intros i j i' j' Hi Hj Hij Hi' Hj' Hij' Hx Hy. eexists. split; [apply (edge_midpoint i j); assumption|]. assert (Hm := edge_midpoint i' j' (grid (X + dx) (Y + dy)) Hi' Hj' Hij'). unfold grid in *. cbn [fst snd] in *. rewrite !plus_IZR in Hm.
    replace (sqrt 3 / 2 * IZR X + (fst (corner i) + fst (corner j)) / 2) with (sqrt 3 / 2 * (IZR X + IZR dx) + (fst (corner i') + fst (corner j')) / 2) by lra.
    replace (3 / 2 * IZR Y + (snd (corner i) + snd (corner j)) / 2) with (3 / 2 * (IZR Y + IZR dy) + (snd (corner i') + snd (corner j')) / 2) by lra. rewrite !plus_IZR. exact Hm. }
  intros Hin. cbn [In] in Hin. repeat (destruct Hin as [Hin|Hin]; [injection Hin as <- <-|]); [| | | | | | |destruct Hin].
  - apply (G 0%nat 1%nat 0%nat 1%nat); try lia; lra.
  - apply (G 3%nat 4%nat 0%nat 1%nat); try lia; rewrite E0, E1, E3, E4; cbn [fst snd]; lra.
  - apply (G 0%nat 1%nat 3%nat 4%nat); try lia; rewrite E0, E1, E3, E4; cbn [fst snd]; lra.
  - apply (G 4%nat 5%nat 1%nat 2%nat); try lia; rewrite E1, E2, E4, E5; cbn [fst snd]; lra.
  - apply (G 0%nat 5%nat 2%nat 3%nat); try lia; rewrite E0, E2, E3, E5; cbn [fst snd]; lra.
  - apply (G 2%nat 3%nat 0%nat 5%nat); try lia; rewrite E0, E2, E3, E5; cbn [fst snd]; lra.
  - apply (G 1%nat 2%nat 4%nat 5%nat); try lia; rewrite E1, E2, E4, E5; cbn [fst snd]; lra.
Qed.

(** ** Cells *)
(** the horizontal position of a cell in half cells *)
Definition half (odd_rows : bool) (x y : Z) : Z := (2 * x + (if odd_rows then y mod 2 else - (y mod 2)))%Z.
Lemma centre_grid odd x y : hex_centre odd x y = grid (half odd x y) y.
Proof.
  assert (E : Z.land y 1 = (y mod 2)%Z) by (change 1%Z with (Z.ones 1); rewrite Z.land_ones by lia; reflexivity).
  unfold hex_centre, half, grid, oddr_offset_to_pixel, evenr_offset_to_pixel. rewrite E. destruct odd; f_equal; rewrite ?plus_IZR, ?mult_IZR, ?opp_IZR; try field; rewrite ?Rmult_1_l; field.
Qed.

(** the hexagonal neighbours when odd rows are shifted right instead *)
Definition hex_offset_odd (a dx dy : Z) : Prop :=
  (In (dx, dy) (if Z.even a then [(0, 0); (0, -1); (0, 1); (-1, 0); (-1, -1); (1, 0); (1, -1)]
                else [(0, 0); (0, -1); (0, 1); (-1, 0); (-1, 1); (1, 0); (1, 1)]))%Z.

Lemma parities y y' : (y' = y \/ y' = y + 1 \/ y' = y - 1)%Z -> ((y' = y -> y' mod 2 = y mod 2) /\ (y' <> y -> y' mod 2 = 1 - y mod 2))%Z.
Proof.
  intros Hy. split; [intros ->; reflexivity|]. intros Hne. rewrite !Zmod_even. assert (E : Z.even y' = negb (Z.even y)) by (destruct Hy as [?|[-> | ->]]; [contradiction|rewrite Z.add_1_r, Z.even_succ, <- Z.negb_even; reflexivity|rewrite Z.sub_1_r, Z.even_pred, <- Z.negb_even; reflexivity]). rewrite E. destruct (Z.even y); reflexivity.
Qed.
Ltac pick := (left; f_equal; lia) || (right; pick).
Lemma offsets (odd : bool) x y x' y' : let X := half odd x y in let X' := half odd x' y' in
  (Z.abs (X - X') <= 2 /\ Z.abs (X - X' + 3 * (y - y')) <= 4 /\ Z.abs (X - X' - 3 * (y - y')) <= 4)%Z ->
  In (X' - X, y' - y)%Z [(0, 0); (2, 0); (-2, 0); (1, 1); (-1, 1); (1, -1); (-1, -1)]%Z /\ (if odd then hex_offset_odd else hex_offset) y (y' - y)%Z (x' - x)%Z.
Proof.
  intros X X' (H1 & H2 & H3). assert (Hy : (y' = y \/ y' = y + 1 \/ y' = y - 1)%Z) by lia.
  assert (Hm : (y mod 2 = 0 /\ Z.even y = true \/ y mod 2 = 1 /\ Z.even y = false)%Z) by (rewrite Zmod_even; destruct (Z.even y); auto).
  assert (Hp : ((y' = y -> y' mod 2 = y mod 2) /\ (y' <> y -> y' mod 2 = 1 - y mod 2))%Z) by (apply parities; assumption).
  unfold X, X', half, hex_offset, hex_offset_odd in *. clear X X'.
  assert (Hx : (x' = x \/ x' = x + 1 \/ x' = x - 1)%Z) by (destruct odd; lia).
  destruct Hy as [-> |[-> | ->]]; [destruct Hp as [Hp _]|destruct Hp as [_ Hp]|destruct Hp as [_ Hp]]; specialize (Hp ltac:(lia)); destruct Hx as [-> |[-> | ->]];
    destruct Hm as [[E0 E1]|[E0 E1]]; destruct odd; cbv beta iota; rewrite ?Hp, ?E0 in H1, H2, H3; try lia; (split; [rewrite ?Hp, ?E0; cbn [In]; pick|rewrite E1; cbn [In]; pick]).
Qed.
Lemma offsets_back (odd : bool) x y x' y' : (if odd then hex_offset_odd else hex_offset) y (y' - y)%Z (x' - x)%Z ->
  In (half odd x' y' - half odd x y, y' - y)%Z [(0, 0); (2, 0); (-2, 0); (1, 1); (-1, 1); (1, -1); (-1, -1)]%Z.
Proof.
  intros Ho. assert (Hy : (y' = y \/ y' = y + 1 \/ y' = y - 1)%Z) by (unfold hex_offset, hex_offset_odd in Ho; destruct odd; cbv beta iota in Ho; destruct (Z.even y); cbn [In] in Ho; repeat (destruct Ho as [Ho|Ho]; [injection Ho as ? ?; lia|]); destruct Ho).
  assert (Hm : (y mod 2 = 0 /\ Z.even y = true \/ y mod 2 = 1 /\ Z.even y = false)%Z) by (rewrite Zmod_even; destruct (Z.even y); auto).
  assert (Hp : ((y' = y -> y' mod 2 = y mod 2) /\ (y' <> y -> y' mod 2 = 1 - y mod 2))%Z) by (apply parities; assumption).
  unfold hex_offset, hex_offset_odd, half in *.
  destruct odd; cbv beta iota in Ho; (destruct Hm as [[E0 E1]|[E0 E1]]); rewrite E1 in Ho; cbn [In] in Ho; repeat (destruct Ho as [Ho|Ho]; [injection Ho as ? ?; (rewrite (proj1 Hp), E0 by lia) || (rewrite (proj2 Hp), E0 by lia); cbn [In]; pick|]); destruct Ho.
Qed.

Lemma touching_cells (odd : bool) x y x' y' : touching (hex_centre odd x y) (hex_centre odd x' y') <-> (if odd then hex_offset_odd else hex_offset) y (y' - y)%Z (x' - x)%Z.
Proof.
  rewrite !centre_grid. split.
  - intros Ht. apply touching_bounds in Ht. apply offsets in Ht. apply Ht.
  - intros Ho. apply offsets_back in Ho. replace (half odd x' y') with (half odd x y + (half odd x' y' - half odd x y))%Z by lia. replace y' with (y + (y' - y))%Z at 2 by lia. apply touching_offsets. exact Ho.
Qed.

Lemma half_parity (odd : bool) x y : exists k, half odd x y = (2 * k + y)%Z.
Proof. pose proof (Z.div_mod y 2 ltac:(lia)) as Hd. unfold half. destruct odd; [exists (x - y / 2)%Z; lia|exists (x - y / 2 - y mod 2)%Z; lia]. Qed.
Lemma parity_gap (odd : bool) x y x' y' : (x, y) <> (x', y') -> let X := half odd x y in let X' := half odd x' y' in (4 <= (X - X') * (X - X') + 3 * ((y - y') * (y - y')))%Z.
Proof.
  intros Hne X X'. assert (Hsq : forall z, (0 <= z * z)%Z) by (intros z; nia). destruct (Z.eq_dec y y') as [<- |Hy].
  - assert (Hx : x <> x') by congruence. assert (E : (X - X' = 2 * (x - x'))%Z) by (unfold X, X', half; destruct odd; lia). rewrite E. assert ((1 <= (x - x') * (x - x'))%Z) by nia. lia.
  - destruct (half_parity odd x y) as [k Ek], (half_parity odd x' y') as [k' Ek']. fold X in Ek. fold X' in Ek'. destruct (Z.le_gt_cases 2 (Z.abs (y - y'))) as [H2|H2].
    + assert ((4 <= (y - y') * (y - y'))%Z) by nia. specialize (Hsq (X - X')%Z). lia.
    + assert (Hd : (y - y' = 1 \/ y - y' = -1)%Z) by lia. assert ((1 <= (X - X') * (X - X'))%Z) by (assert ((X - X' <> 0)%Z) by lia; nia). destruct Hd as [-> | ->]; lia.
Qed.

Lemma hex_offset_dec a dx dy : hex_offset a dx dy \/ ~ hex_offset a dx dy.
Proof. unfold hex_offset. destruct (in_dec (A := (Z * Z)%type) eqd (dx, dy) (if Z.even a then [(0, 0); (0, -1); (0, 1); (-1, 0); (-1, 1); (1, 0); (1, 1)] else [(0, 0); (0, -1); (0, 1); (-1, 0); (-1, -1); (1, 0); (1, -1)])%Z); auto. Qed.

(** ** C79 *)
(** one polygon per cell *)
Theorem C79_cells : forall (A : Type) (activities : list (list A)),
  (forall x y v, In (x, y, v) (get_triples activities) <-> exists row, nth_error activities (Z.to_nat y) = Some row /\ nth_error row (Z.to_nat x) = Some v /\ (0 <= x)%Z /\ (0 <= y)%Z) /\
  NoDup (map fst (get_triples activities)) /\ map snd (get_triples activities) = concat activities /\
  hexagons activities = map (fun t => (hex_centre (Z.odd (Z.of_nat (length activities))) (fst (fst t)) (snd (fst t)), snd t)) (get_triples activities).
Proof.
  intros A activities. split; [|split; [|split]].
  - intros x y v. unfold get_triples. rewrite in_flat_map. split.
    + intros ([y' row] & Hy & Hin). apply TopologyProofs3.in_enumerate in Hy. cbn [fst snd] in Hin. apply in_map_iff in Hin. destruct Hin as ([x' v'] & E & Hx). apply TopologyProofs3.in_enumerate in Hx. cbn [fst snd] in E. injection E as <- <- <-.
      exists row. rewrite !Nat2Z.id. split; [assumption|]. split; [assumption|]. lia.
    + intros (row & Hy & Hx & H0x & H0y). exists (Z.to_nat y, row). split; [apply TopologyProofs3.in_enumerate; assumption|]. cbn [fst snd]. apply in_map_iff. exists (Z.to_nat x, v). cbn [fst snd]. rewrite !Z2Nat.id by assumption. split; [reflexivity|]. apply TopologyProofs3.in_enumerate. assumption.
  - unfold get_triples. unfold enumerate at 2. generalize O. induction activities as [|row rows IH]; intros s; [constructor|]. cbn [length seq combine flat_map fst snd]. rewrite map_app. apply LatticeProofs.NoDup_app_disj.
    + rewrite map_map. cbn [fst]. unfold enumerate. generalize O. induction row as [|v row IHr]; intros k; [constructor|]. cbn [length seq combine map fst snd]. constructor; [|apply IHr]. intros Hin. apply in_map_iff in Hin. destruct Hin as ([k' v'] & E & Hin). apply in_combine_l in Hin. apply in_seq in Hin. cbn [fst] in E. injection E as E. lia.
    + apply IH.
    + intros [x y] H1 H2. apply in_map_iff in H1, H2. destruct H1 as ([p v] & E1 & H1), H2 as ([p' v'] & E2 & H2). cbn [fst] in E1, E2. subst p p'. apply in_map_iff in H1. destruct H1 as (xv & E1 & _). injection E1 as _ <- _.
      apply in_flat_map in H2. destruct H2 as ([y' row'] & H2 & H3). apply in_combine_l in H2. apply in_seq in H2. apply in_map_iff in H3. destruct H3 as (xv' & E3 & _). cbn [fst snd] in E3. injection E3 as _ E3 _. lia.
  - unfold get_triples. unfold enumerate at 2. generalize O. induction activities as [|row rows IH]; intros s; [reflexivity|]. cbn [length seq combine flat_map fst snd concat]. rewrite map_app, IH. f_equal. rewrite map_map. cbn [snd]. unfold enumerate. generalize O. induction row as [|v row IHr]; intros k; [reflexivity|]. cbn [length seq combine map snd]. f_equal. apply IHr.
  - unfold hexagons, has_odd_rows. rewrite Zmod_odd. destruct (Z.odd _); reflexivity.
Qed.

(** different cells: the centres are at least sqrt 3 apart, and the polygons do not overlap *)
Theorem C79_no_overlap : forall odd_rows x y x' y', (x, y) <> (x', y') ->
  sqrt 3 <= distance (hex_centre odd_rows x y) (hex_centre odd_rows x' y') /\ ~ overlapping (hex_centre odd_rows x y) (hex_centre odd_rows x' y').
Proof.
  intros odd x y x' y' Hne. rewrite !centre_grid. split.
  - unfold distance. apply sqrt_le_1_alt. unfold grid. cbn [fst snd]. destruct sqrt3 as [_ H3].
    set (X := half odd x y). set (X' := half odd x' y'). replace ((sqrt 3 / 2 * IZR X - sqrt 3 / 2 * IZR X') ^ 2 + (3 / 2 * IZR y - 3 / 2 * IZR y') ^ 2) with (3 / 4 * IZR ((X - X') * (X - X') + 3 * ((y - y') * (y - y')))).
    2: { rewrite plus_IZR, !mult_IZR, !minus_IZR. transitivity (sqrt 3 * sqrt 3 / 4 * ((IZR X - IZR X') * (IZR X - IZR X')) + 9 / 4 * ((IZR y - IZR y') * (IZR y - IZR y'))); [rewrite H3; field|field]. }
    assert (Hz : (4 <= (X - X') * (X - X') + 3 * ((y - y') * (y - y')))%Z). { apply parity_gap; assumption. }
    apply IZR_le in Hz. lra.
  - intros Ho. apply overlapping_bounds in Ho. destruct Ho as (H1 & H2 & H3). apply Hne.
    destruct (offsets odd x y x' y') as [Hin _]; [cbv zeta; repeat split; apply Z.lt_le_incl; assumption|]. cbn [In] in Hin. repeat (destruct Hin as [Hin|Hin]; [injection Hin as ? ?; try lia|]); [|destruct Hin].
    assert (y = y') by lia. subst y'. f_equal. unfold half in *. destruct odd; lia.
Qed.
(** even number of rows: the polygons that touch are the neighbours of the hexagonal topology that are reached without wrapping *)
Theorem C79_touching_even : forall a b c d, touching (hex_centre false b a) (hex_centre false d c) <-> hex_offset a (c - a) (d - b).
Proof. intros a b c d. apply (touching_cells false). Qed.
Theorem C79_neighbours_even : forall rows cols M, (0 < rows)%Z -> (0 < cols)%Z -> (9 <= rows * cols)%Z -> adj_cellular_automaton2d rows cols 1 "Hex" "periodic" = Ok M ->
  forall a b c d, (0 <= a < rows)%Z -> (0 <= b < cols)%Z -> (0 <= c < rows)%Z -> (0 <= d < cols)%Z ->
    (touching (hex_centre false b a) (hex_centre false d c) -> at_ M (a * cols + b) (c * cols + d) = Some 1%Z) /\
    (at_ M (a * cols + b) (c * cols + d) = Some 1%Z -> (0 < a < rows - 1)%Z -> (0 < b < cols - 1)%Z -> touching (hex_centre false b a) (hex_centre false d c)).
Proof.
  intros rows cols M Hr Hc H9 EM a b c d Ha Hb Hc' Hd. destruct (C12_hex_r1 rows cols Hr Hc H9) as (M' & E' & _ & Hadj). rewrite EM in E'. injection E' as <-.
  specialize (Hadj a b c d Ha Hb Hc' Hd). cbv zeta in Hadj. destruct Hadj as [H1 H2]. split.
  - intros Ht. apply C79_touching_even in Ht. apply H1. exists (c - a)%Z, (d - b)%Z. split; [assumption|]. split; symmetry; [replace (a + (c - a))%Z with c by lia|replace (b + (d - b))%Z with d by lia]; apply Z.mod_small; lia.
  - intros E Hai Hbi. apply C79_touching_even.
    destruct (hex_offset_dec a (c - a) (d - b)) as [Ho|Hno]; [exact Ho|]. exfalso. enough (Hn : ~ torus_step rows cols (hex_offset a) a b c d) by (rewrite (H2 Hn) in E; discriminate).
    intros (dx & dy & Ho & -> & ->). apply Hno.
    assert (Hdxy : (-1 <= dx <= 1 /\ -1 <= dy <= 1)%Z). { unfold hex_offset in Ho. destruct (Z.even a); cbn [In] in Ho; repeat (destruct Ho as [Ho|Ho]; [injection Ho as <- <-; lia|]); destruct Ho. }
    rewrite !Z.mod_small by lia. replace (a + dx - a)%Z with dx by lia. replace (b + dy - b)%Z with dy by lia. exact Ho.
Qed.
(** odd number of rows: the other offset *)
Theorem C79_touching_odd : forall a b c d, touching (hex_centre true b a) (hex_centre true d c) <-> hex_offset_odd a (c - a) (d - b).
Proof. intros a b c d. apply (touching_cells true). Qed.
(** the cells (row 0, column 0) and (1, 1) are neighbours that do not touch; (0, 1) and (1, 0) touch and are not neighbours *)
Theorem C79_odd_rows : forall rows cols M, (3 <= rows)%Z -> (3 <= cols)%Z -> adj_cellular_automaton2d rows cols 1 "Hex" "periodic" = Ok M ->
  at_ M (0 * cols + 0) (1 * cols + 1) = Some 1%Z /\ ~ touching (hex_centre true 0 0) (hex_centre true 1 1) /\
  at_ M (0 * cols + 1) (1 * cols + 0) = Some 0%Z /\ touching (hex_centre true 1 0) (hex_centre true 0 1).
Proof.
  intros rows cols M Hr Hc EM. destruct (C12_hex_r1 rows cols ltac:(lia) ltac:(lia) ltac:(nia)) as (M' & E' & _ & Hadj). rewrite EM in E'. injection E' as <-.
  split; [|split; [|split]].
  - apply (Hadj 0 0 1 1)%Z; try lia. exists 1%Z, 1%Z. split; [vm_compute; tauto|]. split; symmetry; apply Z.mod_small; lia.
  - rewrite C79_touching_odd. vm_compute. intuition discriminate.
  - apply (Hadj 0 1 1 0)%Z; try lia. intros (dx & dy & Ho & E1 & E2). unfold hex_offset in Ho. cbn [Z.even In] in Ho. repeat (destruct Ho as [Ho|Ho]; [injection Ho as <- <-|]); [| | | | | | |destruct Ho].
    all: rewrite ?(Z.mod_small (1 + 0)), ?(Z.mod_small (1 + 1)), ?(Z.mod_small (0 + 0)), ?(Z.mod_small (0 + 1)) in * by lia; try lia.
    all: rewrite <- (Z.mod_unique (0 + -1) rows (-1) (rows - 1)) in E1 by lia; lia.
  - apply C79_touching_odd. vm_compute. tauto.
Qed.

(** ** Examples *)
Example C79_nonvacuous : (exists M, adj_cellular_automaton2d 4 4 1 "Hex" "periodic" = Ok M) /\ (exists M, adj_cellular_automaton2d 3 3 1 "Hex" "periodic" = Ok M) /\
  touching (hex_centre false 1 2) (hex_centre false 2 1) /\ ~ touching (hex_centre false 1 2) (hex_centre false 0 1) /\ get_triples [[5; 6]; [7; 8]]%Z = [(0, 0, 5); (1, 0, 6); (0, 1, 7); (1, 1, 8)]%Z.
Proof.
  split; [eexists; vm_compute; reflexivity|]. split; [eexists; vm_compute; reflexivity|]. rewrite !C79_touching_even. split; [vm_compute; tauto|]. split; [vm_compute; intuition discriminate|reflexivity].
Qed.

Print Assumptions C79_cells.
Print Assumptions C79_no_overlap.
Print Assumptions C79_touching_even.
Print Assumptions C79_neighbours_even.
Print Assumptions C79_touching_odd.
Print Assumptions C79_odd_rows.
