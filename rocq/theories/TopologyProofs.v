(** * Proofs about the matrices of topology/adjacency.py. *)
From Verif Require Import Py PyFacts ListFacts Network NetworkProofs2 Topology TopologySpec.
Open Scope string_scope.
Open Scope Z_scope.

(** ** Writes into a 0/1 matrix *)

(** [M] is square of size [k] and has a 1 exactly at the positions [W] *)
Definition bin (k : Z) (W : list (Z * Z)) (M : list (list Z)) : Prop :=
  is_square k M /\
  forall i j, 0 <= i < k -> 0 <= j < k -> at_ M i j = Some (if in_dec eqd (i, j) W then 1 else 0).

Lemma bin_equiv k W W' M : (forall x, In x W <-> In x W') -> bin k W M -> bin k W' M.
Proof.
  intros Hx [Hs He]. split; [assumption|]. intros i j Hi Hj. rewrite (He i j Hi Hj). f_equal.
  destruct (in_dec eqd (i, j) W) as [H1|H1], (in_dec eqd (i, j) W') as [H2|H2]; try reflexivity;
    exfalso; [apply H2, Hx|apply H1, Hx]; assumption.
Qed.

Lemma bin_zero k : 0 <= k -> bin k [] (zero_matrix k).
Proof.
  intros Hk. unfold zero_matrix. split.
  - split; [rewrite repeat_length; lia|]. intros row Hr. apply repeat_spec in Hr. subst. rewrite repeat_length. lia.
  - intros i j Hi Hj. unfold at_. rewrite (nth_error_nth' _ (repeat 0 (Z.to_nat k))) by (rewrite repeat_length; lia).
    rewrite nth_repeat. rewrite (nth_error_nth' _ 0) by (rewrite repeat_length; lia). rewrite nth_repeat. reflexivity.
Qed.

Lemma mat_set_bin k W M i j : bin k W M -> - k <= i < k -> - k <= j < k ->
  exists M', mat_set M i j 1 = Ok M' /\ bin k ((i mod k, j mod k) :: W) M'.
Proof.
  intros [[Hl Hr] He] Hi Hj. unfold mat_set.
  assert (Hmi := Z.mod_pos_bound i k ltac:(lia)). assert (Hmj := Z.mod_pos_bound j k ltac:(lia)).
  rewrite py_index_mod by lia. rewrite Hl.
  destruct (nth_error M (Z.to_nat (i mod k))) as [row|] eqn:Er.
  2:{ apply nth_error_None in Er. exfalso. lia. }
  assert (Hrow : Z.of_nat (length row) = k) by (apply Hr; eapply nth_error_In; eassumption).
  rewrite py_index_mod by lia. rewrite Hrow. eexists. split; [reflexivity|]. split; [split|].
  - rewrite length_upd_nth. assumption.
  - intros row' Hin. apply In_nth_error in Hin. destruct Hin as [p Hp]. rewrite nth_error_upd_nth in Hp.
    destruct (Nat.eq_dec p _) as [->|Hne].
    + rewrite Er in Hp. cbn in Hp. injection Hp as <-. rewrite length_upd_nth. assumption.
    + apply Hr. eapply nth_error_In; eassumption.
  - intros p q Hp Hq. specialize (He p q Hp Hq). unfold at_ in *. rewrite nth_error_upd_nth.
    destruct (Nat.eq_dec (Z.to_nat p) (Z.to_nat (i mod k))) as [E|Hne].
    + assert (Ep : p = i mod k) by lia. subst p. rewrite Er in *. cbn [option_map].
      rewrite nth_error_upd_nth. destruct (Nat.eq_dec (Z.to_nat q) (Z.to_nat (j mod k))) as [E2|Hne2].
      * assert (Eq : q = j mod k) by lia. subst q. rewrite He. cbn [option_map]. f_equal.
        destruct (in_dec eqd (i mod k, j mod k) ((i mod k, j mod k) :: W)) as [_|Hn]; [reflexivity|].
        exfalso. apply Hn. left. reflexivity.
      * rewrite He. f_equal.
        destruct (in_dec eqd (i mod k, q) W) as [H1|H1], (in_dec eqd (i mod k, q) ((i mod k, j mod k) :: W)) as [H2|H2]; try reflexivity.
        -- exfalso. apply H2. right. assumption.
        -- exfalso. destruct H2 as [E2|H2]; [|contradiction]. injection E2 as E2. lia.
    + rewrite He. f_equal.
      destruct (in_dec eqd (p, q) W) as [H1|H1], (in_dec eqd (p, q) ((i mod k, j mod k) :: W)) as [H2|H2]; try reflexivity.
      * exfalso. apply H2. right. assumption.
      * exfalso. destruct H2 as [E2|H2]; [|contradiction]. injection E2 as E2 _. lia.
Qed.

(** a loop whose body writes the positions [ws x] writes all of them *)
Lemma rfold_bin {A} k (f : list (list Z) -> A -> res (list (list Z))) (ws : A -> list (Z * Z)) l W M :
  (forall x W M, In x l -> bin k W M -> exists M', f M x = Ok M' /\ bin k (ws x ++ W) M') ->
  bin k W M -> exists M', rfold f l M = Ok M' /\ bin k (flat_map ws l ++ W) M'.
Proof.
  revert W M. induction l as [|x xs IH]; intros W M Hf HM; cbn [rfold flat_map].
  - exists M. auto.
  - destruct (Hf x W M (or_introl eq_refl) HM) as (M1 & E1 & H1). rewrite E1. cbn [rbind].
    destruct (IH _ _ (fun y W M Hy => Hf y W M (or_intror Hy)) H1) as (M2 & E2 & H2). exists M2. split; [assumption|].
    eapply bin_equiv; [|eassumption]. intros y. rewrite !in_app_iff. tauto.
Qed.

(** ** 1D *)

Definition row_writes (n r w : Z) : list (Z * Z) :=
  (w, w) :: flat_map (fun i => [(w, (w + (1 + i)) mod n); (w, (w - (1 + i)) mod n)]) (zrange 0 r).

Lemma row_loop n r w W M : 0 < n -> r <= n -> 0 <= w < n -> bin n W M ->
  exists M', rfold (fun M i => M <- mat_set M w (w - (1 + i)) 1 ;; mat_set M w ((w + (1 + i)) mod n) 1) (zrange 0 r) M = Ok M' /\
             bin n (flat_map (fun i => [(w, (w + (1 + i)) mod n); (w, (w - (1 + i)) mod n)]) (zrange 0 r) ++ W) M'.
Proof.
  intros Hn Hr Hw HM. apply rfold_bin; [|assumption]. clear W M HM. intros i W M Hi HM. apply in_zrange in Hi.
  destruct (mat_set_bin n W M w (w - (1 + i)) HM) as (M1 & E1 & H1); [lia|lia|]. rewrite E1. cbn [rbind].
  destruct (mat_set_bin n _ M1 w ((w + (1 + i)) mod n) H1) as (M2 & E2 & H2); [lia| |].
  { assert (Hm := Z.mod_pos_bound (w + (1 + i)) n Hn). lia. }
  exists M2. split; [assumption|]. rewrite Z.mod_mod, (Z.mod_small w n) in H2 by lia. assumption.
Qed.

Lemma adj1d_bin n r : 3 <= n -> r <= n ->
  exists M, adj_cellular_automaton n r "periodic" = Ok M /\ bin n (flat_map (row_writes n r) (zrange 0 n)) M.
Proof.
  intros Hn Hr. unfold adj_cellular_automaton. destruct (n <? 3) eqn:E; [lia|].
  rewrite eqb_refl.
  edestruct (rfold_bin n (fun M w =>
      rfold (fun M c =>
        if w =? c then
          M <- mat_set M w c 1 ;;
          rfold (fun M i =>
            M <- mat_set M w (c - (1 + i)) 1 ;;
            mat_set M w ((c + (1 + i)) mod n) 1)
            (zrange 0 r) M
        else Ok M)
        (zrange 0 n) M) (row_writes n r) (zrange 0 n) [] (zero_matrix n)) as (M' & E' & H').
  - intros w W M Hw HM. apply in_zrange in Hw.
    edestruct (rfold_bin n (fun M c =>
        if w =? c then
          M <- mat_set M w c 1 ;;
          rfold (fun M i =>
            M <- mat_set M w (c - (1 + i)) 1 ;;
            mat_set M w ((c + (1 + i)) mod n) 1)
            (zrange 0 r) M
        else Ok M) (fun c => if w =? c then row_writes n r w else []) (zrange 0 n) W M) as (M' & E' & H').
    + intros c W1 M1 Hc HM1. apply in_zrange in Hc. destruct (Z.eqb_spec w c) as [->|Hne]; [|exists M1; auto].
      destruct (mat_set_bin n W1 M1 c c HM1) as (M2 & E2 & H2); [lia|lia|]. rewrite E2. cbn [rbind].
      destruct (row_loop n r c _ M2 ltac:(lia) Hr Hc H2) as (M3 & E3 & H3). exists M3. split; [exact E3|].
      eapply bin_equiv; [|exact H3]. rewrite (Z.mod_small c n) by lia. intros x. unfold row_writes.
      rewrite !in_app_iff. cbn [In]. tauto.
    + assumption.
    + exists M'. split; [assumption|]. eapply bin_equiv; [|exact H']. intros x. rewrite !in_app_iff, in_flat_map.
      split; (intros [Hx|Hx]; [left|right; assumption]).
      * destruct Hx as (c & Hc & Hx). destruct (w =? c); [assumption|contradiction].
      * exists w. split; [apply in_zrange; lia|]. rewrite Z.eqb_refl. assumption.
  - apply bin_zero. lia.
  - exists M'. split; [exact E'|]. rewrite app_nil_r in H'. assumption.
Qed.

Lemma ring_cases n x : 0 < n -> (- x) mod n = if x mod n =? 0 then 0 else n - x mod n.
Proof.
  intros Hn. destruct (Z.eqb_spec (x mod n) 0) as [E|E].
  - apply Z.mod_opp_l_z; lia.
  - apply Z.mod_opp_l_nz; lia.
Qed.

Lemma writes_ring n r i j : 0 < n -> 0 <= r -> 0 <= i < n -> 0 <= j < n ->
  In (i, j) (flat_map (row_writes n r) (zrange 0 n)) <-> ring_distance n i j <= r.
Proof.
  intros Hn Hr Hi Hj. rewrite in_flat_map. unfold row_writes, ring_distance. split.
  - intros (w & Hw & Hin). destruct Hin as [E|Hin].
    + injection E as <- <-. rewrite Z.sub_diag, Z.mod_0_l by lia. lia.
    + apply in_flat_map in Hin. destruct Hin as (d & Hd & Hin). apply in_zrange in Hd, Hw.
      cbn in Hin. destruct Hin as [E|[E|[]]]; injection E as <- <-.
      * apply Z.min_le_iff. left. rewrite Zminus_mod_idemp_l. replace (w + (1 + d) - w) with (1 + d) by lia.
        apply Z.le_trans with (1 + d); [apply Z.mod_le; lia|lia].
      * apply Z.min_le_iff. right. rewrite Zminus_mod_idemp_r. replace (w - (w - (1 + d))) with (1 + d) by lia.
        apply Z.le_trans with (1 + d); [apply Z.mod_le; lia|lia].
  - intros Hd. exists i. split; [apply in_zrange; lia|].
    destruct (Z.eq_dec i j) as [->|Hne]; [left; reflexivity|right].
    assert (Hk : forall x, (x mod n = 0 -> False) -> 0 < x mod n < n) by (intros x Hx; assert (Hb := Z.mod_pos_bound x n Hn); lia).
    assert (H1 : 0 < (j - i) mod n < n).
    { apply Hk. intros E. rewrite Z.mod_divide in E by lia. destruct E as [q E]. clear Hd Hk.
      destruct (Z.lt_trichotomy q 0) as [Hq|[Hq|Hq]]; nia. }
    assert (H2 : 0 < (i - j) mod n < n).
    { apply Hk. intros E. rewrite Z.mod_divide in E by lia. destruct E as [q E]. clear Hd Hk H1.
      destruct (Z.lt_trichotomy q 0) as [Hq|[Hq|Hq]]; nia. }
    apply in_flat_map. apply Z.min_le_iff in Hd. destruct Hd as [Hd|Hd].
    + exists ((j - i) mod n - 1). split; [apply in_zrange; lia|]. left. f_equal.
      replace (i + (1 + ((j - i) mod n - 1))) with (i + (j - i) mod n) by lia. rewrite Zplus_mod_idemp_r.
      replace (i + (j - i)) with j by lia. apply Z.mod_small. assumption.
    + exists ((i - j) mod n - 1). split; [apply in_zrange; lia|]. right. left. f_equal.
      replace (i - (1 + ((i - j) mod n - 1))) with (i - (i - j) mod n) by lia. rewrite Zminus_mod_idemp_r.
      replace (i - (i - j)) with j by lia. apply Z.mod_small. assumption.
Qed.

Lemma bin_at k W M i j (b : bool) : bin k W M -> 0 <= i < k -> 0 <= j < k -> (In (i, j) W <-> b = true) ->
  at_ M i j = Some (if b then 1 else 0).
Proof.
  intros [_ He] Hi Hj Hb. rewrite (He i j Hi Hj). f_equal.
  destruct (in_dec eqd (i, j) W) as [H1|H1], b; try reflexivity.
  - apply Hb in H1. discriminate.
  - exfalso. apply H1, Hb. reflexivity.
Qed.

Lemma adj1d_spec n r : 3 <= n -> 0 <= r <= n ->
  exists M, adj_cellular_automaton n r "periodic" = Ok M /\ is_square n M /\
    forall i j, 0 <= i < n -> 0 <= j < n -> at_ M i j = Some (if ring_distance n i j <=? r then 1 else 0).
Proof.
  intros Hn Hr. destruct (adj1d_bin n r Hn ltac:(lia)) as (M & E & HM). exists M. split; [assumption|].
  split; [exact (proj1 HM)|]. intros i j Hi Hj. eapply bin_at; [eassumption|assumption|assumption|].
  rewrite writes_ring by lia. rewrite Z.leb_le. reflexivity.
Qed.

Lemma rfold_err {A S} (f : S -> A -> res S) l1 x l2 s s' e :
  rfold f l1 s = Ok s' -> f s' x = Err e -> rfold f (l1 ++ x :: l2) s = Err e.
Proof. intros E1 E2. rewrite rfold_app, E1. cbn [rbind rfold]. rewrite E2. reflexivity. Qed.

Lemma adj1d_err n r : 3 <= n -> n < r -> adj_cellular_automaton n r "periodic" = Err IndexError.
Proof.
  intros Hn Hr. unfold adj_cellular_automaton. destruct (n <? 3) eqn:E; [lia|]. rewrite eqb_refl.
  rewrite (zrange_cons 0 n) by lia. cbn [rfold]. rewrite Z.eqb_refl.
  destruct (mat_set_bin n [] _ 0 0 (bin_zero n ltac:(lia))) as (M1 & E1 & H1); [lia|lia|]. rewrite E1. cbn [rbind].
  rewrite (zrange_split 0 n r) by lia.
  destruct (row_loop n n 0 _ M1 ltac:(lia) ltac:(lia) ltac:(lia) H1) as (M2 & E2 & H2).
  rewrite (zrange_cons n r) by lia.
  rewrite (rfold_err _ _ _ _ _ M2 IndexError); [reflexivity|exact E2|].
  unfold mat_set. destruct H2 as [[Hl Hrow] _]. rewrite py_index_mod by lia.
  destruct (nth_error M2 _) as [row|] eqn:Er.
  - rewrite py_index_err; [reflexivity|]. rewrite (Hrow row) by (eapply nth_error_In; eassumption). lia.
  - reflexivity.
Qed.

Lemma adj1d_small n r b : n < 3 -> adj_cellular_automaton n r b = Err (Raise "There must be at least 3 cells").
Proof. intros Hn. unfold adj_cellular_automaton. destruct (n <? 3) eqn:E; [reflexivity|lia]. Qed.

Lemma adj1d_boundary n r b : 3 <= n -> b <> "periodic" ->
  adj_cellular_automaton n r b = Err (Raise "unsupported boundary condition").
Proof.
  intros Hn Hb. unfold adj_cellular_automaton. destruct (n <? 3) eqn:E; [lia|].
  destruct (eqb_spec b "periodic"); [contradiction|reflexivity].
Qed.

(** ** 2D *)

Lemma nth_error_map_zrange {A} (f : Z -> A) n i : 0 <= i < n -> nth_error (map f (zrange 0 n)) (Z.to_nat i) = Some (f i).
Proof. intros Hi. rewrite nth_error_map, nth_error_zrange by lia. cbn. do 2 f_equal. lia. Qed.

Lemma py_nth_map_zrange {A} (f : Z -> A) n i : 0 < n -> - n <= i < n -> py_nth (map f (zrange 0 n)) i = Some (f (i mod n)).
Proof.
  intros Hn Hi. unfold py_nth. rewrite map_length, length_zrange.
  rewrite py_index_mod by lia. replace (Z.of_nat (Z.to_nat (n - 0))) with n by lia.
  apply nth_error_map_zrange. apply Z.mod_pos_bound. assumption.
Qed.

Lemma lattice_get_ids rows cols x y : 0 < rows -> 0 < cols -> - rows <= x < rows -> - cols <= y < cols ->
  lattice_get (lattice_ids rows cols) x y = Ok ((x mod rows) * cols + y mod cols).
Proof.
  intros Hr Hc Hx Hy. unfold lattice_get, lattice_ids. rewrite py_nth_map_zrange by lia. cbn [of_opt rbind].
  rewrite py_nth_map_zrange by lia. reflexivity.
Qed.

Lemma in_points a b r crit rownum x y :
  In (x, y) (get_neighbourhood_points2d a b r crit rownum) <->
  a - r <= x <= a + r /\ b - r <= y <= b + r /\ crit x y a b r rownum = true.
Proof.
  unfold get_neighbourhood_points2d. rewrite in_concat. split.
  - intros (l & Hl & Hin). apply in_map_iff in Hl. destruct Hl as (l0 & <- & Hl). apply in_map_iff in Hl.
    destruct Hl as (x0 & <- & Hx). apply filter_In in Hin. destruct Hin as [Hin Hc]. apply in_map_iff in Hin.
    destruct Hin as (y0 & E & Hy). injection E as -> ->. apply in_zrange in Hx, Hy. cbn [fst snd] in Hc.
    repeat split; try lia. assumption.
  - intros (Hx & Hy & Hc). eexists. split.
    + apply in_map. apply in_map. apply in_zrange. instantiate (1 := x). lia.
    + apply filter_In. split; [|exact Hc]. apply in_map_iff. exists y. split; [reflexivity|]. apply in_zrange. lia.
Qed.

Definition cell (cols a b : Z) : Z := a * cols + b.

Lemma cell_bound rows cols a b : 0 <= a < rows -> 0 <= b < cols -> 0 <= cell cols a b < rows * cols.
Proof. unfold cell. nia. Qed.

Lemma cell_inj cols a b c d : 0 <= b < cols -> 0 <= d < cols -> cell cols a b = cell cols c d -> a = c /\ b = d.
Proof. unfold cell. intros Hb Hd E. assert (a = c); [|subst; lia].
  destruct (Z.lt_trichotomy a c) as [Hl|[Hl|Hl]]; [|assumption|]; nia. Qed.

Lemma cell_surj rows cols i : 0 < cols -> 0 <= i < rows * cols ->
  i = cell cols (i / cols) (i mod cols) /\ 0 <= i / cols < rows /\ 0 <= i mod cols < cols.
Proof.
  intros Hc Hi. unfold cell. repeat split.
  - rewrite (Z.div_mod i cols) at 1 by lia. lia.
  - apply Z.div_pos; lia.
  - apply Z.div_lt_upper_bound; lia.
  - apply Z.mod_pos_bound; lia.
  - apply Z.mod_pos_bound; lia.
Qed.

Definition point_writes (rows cols : Z) (i : Z) (p : Z * Z) : list (Z * Z) :=
  [(i, cell cols (fst p mod rows) (snd p mod cols))].

Lemma adj2d_bin rows cols r nb crit : 0 < rows -> 0 < cols -> 9 <= rows * cols ->
  (nb = "von Neumann" /\ crit = crit_von_neumann \/ nb = "Moore" /\ crit = crit_moore \/ nb = "Hex" /\ crit = crit_hex) ->
  exists M, adj_cellular_automaton2d rows cols r nb "periodic" = Ok M /\
    bin (rows * cols) (flat_map (fun a => flat_map (fun b =>
         flat_map (point_writes rows cols (cell cols a b)) (get_neighbourhood_points2d a b r crit (a + 1)))
       (zrange 0 cols)) (zrange 0 rows)) M.
Proof.
  intros Hr Hc Hn Hnb. unfold adj_cellular_automaton2d. destruct (rows * cols <? 9) eqn:E; [lia|].
  rewrite eqb_refl.
  match goal with |- exists M, rbind ?m ?k = _ /\ _ => assert (Ecrit : m = Ok crit) end.
  { destruct Hnb as [[-> ->]|[[-> ->]|[-> ->]]]; reflexivity. }
  rewrite Ecrit. cbn [rbind]. destruct (rows <? 0) eqn:E2; [lia|].
  edestruct (rfold_bin (rows * cols) (fun M a =>
      let rownum := a + 1 in
      rfold (fun M b =>
        adjacency_row_num <- lattice_get (lattice_ids rows cols) a b ;;
        rfold (fun M point =>
          let x := if fst point =? -1 then fst point else fst point mod rows in
          let y := if snd point =? -1 then snd point else snd point mod cols in
          j <- lattice_get (lattice_ids rows cols) x y ;;
          mat_set M adjacency_row_num j 1)
          (get_neighbourhood_points2d a b r crit rownum) M)
        (zrange 0 cols) M)) as (M' & E' & H'); cycle 2.
  - exists M'. split; [exact E'|]. rewrite app_nil_r in H'. exact H'.
  - intros a W M Ha HM. apply in_zrange in Ha. cbv zeta. apply rfold_bin; [|assumption]. clear W M HM.
    intros b W M Hb HM. apply in_zrange in Hb. rewrite lattice_get_ids by lia. cbn [rbind].
    rewrite !Z.mod_small by lia. apply rfold_bin; [|assumption]. clear W M HM.
    intros [x y] W M Hp HM. cbn [fst snd].
    assert (Hx : let x' := if x =? -1 then x else x mod rows in - rows <= x' < rows /\ x' mod rows = x mod rows).
    { cbv zeta. assert (Hm := Z.mod_pos_bound x rows Hr). destruct (Z.eqb_spec x (-1)) as [->|Hne]; [lia|].
      rewrite Z.mod_mod by lia. lia. }
    assert (Hy : let y' := if y =? -1 then y else y mod cols in - cols <= y' < cols /\ y' mod cols = y mod cols).
    { cbv zeta. assert (Hm := Z.mod_pos_bound y cols Hc). destruct (Z.eqb_spec y (-1)) as [->|Hne]; [lia|].
      rewrite Z.mod_mod by lia. lia. }
    cbv zeta in Hx, Hy. destruct Hx as [Hx Ex], Hy as [Hy Ey].
    rewrite lattice_get_ids by assumption. cbn [rbind]. rewrite Ex, Ey.
    assert (B1 := cell_bound rows cols a b Ha Hb).
    assert (B2 := cell_bound rows cols (x mod rows) (y mod cols) (Z.mod_pos_bound x rows Hr) (Z.mod_pos_bound y cols Hc)).
    fold (cell cols a b). fold (cell cols (x mod rows) (y mod cols)).
    destruct (mat_set_bin (rows * cols) W M (cell cols a b) (cell cols (x mod rows) (y mod cols)) HM) as (M1 & E1 & H1); [lia|lia|].
    exists M1. split; [assumption|]. rewrite !Z.mod_small in H1 by lia. exact H1.
  - apply bin_zero. lia.
Qed.

(** the offsets admitted by a criterion in row [a] *)
Definition crit_offset (crit : Z -> Z -> Z -> Z -> Z -> Z -> bool) (r a dx dy : Z) : Prop :=
  Z.abs dx <= r /\ Z.abs dy <= r /\ crit (a + dx) (a * 0 + dy) a 0 r (a + 1) = true.

(** criteria only depend on the column offset *)
Definition crit_shift (crit : Z -> Z -> Z -> Z -> Z -> Z -> bool) : Prop :=
  forall ai bi ao bo r k, crit ai bi ao bo r k = crit ai (bi - bo) ao 0 r k.

Lemma crit_shift_all : crit_shift crit_von_neumann /\ crit_shift crit_moore /\ crit_shift crit_hex.
Proof.
  unfold crit_shift, crit_von_neumann, crit_moore, crit_hex.
  repeat split; intros; rewrite ?Z.sub_0_r; try reflexivity.
  do 2 f_equal. replace (0 - (bi - bo)) with (bo - bi) by lia. reflexivity.
Qed.

Lemma writes_torus rows cols r crit a b c d : 0 < rows -> 0 < cols -> crit_shift crit ->
  0 <= a < rows -> 0 <= b < cols -> 0 <= c < rows -> 0 <= d < cols ->
  In (cell cols a b, cell cols c d)
     (flat_map (fun a => flat_map (fun b =>
         flat_map (point_writes rows cols (cell cols a b)) (get_neighbourhood_points2d a b r crit (a + 1)))
       (zrange 0 cols)) (zrange 0 rows)) <->
  torus_step rows cols (crit_offset crit r a) a b c d.
Proof.
  intros Hr Hc Hs Ha Hb Hc' Hd. unfold torus_step, crit_offset. rewrite in_flat_map. split.
  - intros (a' & Ha' & Hin). apply in_flat_map in Hin. destruct Hin as (b' & Hb' & Hin).
    apply in_flat_map in Hin. destruct Hin as ([x y] & Hp & Hin). apply in_zrange in Ha', Hb'.
    destruct Hin as [E|[]]. cbn [fst snd] in E. injection E as E1 E2.
    apply cell_inj in E1; [|assumption|assumption]. destruct E1 as [-> ->].
    apply cell_inj in E2; [|apply Z.mod_pos_bound; assumption|assumption]. destruct E2 as [<- <-].
    apply in_points in Hp. destruct Hp as (Hx & Hy & Hcr). exists (x - a), (y - b).
    rewrite Hs in Hcr. replace (a + (x - a)) with x by lia. replace (a * 0 + (y - b)) with (y - b) by lia.
    replace (b + (y - b)) with y by lia. repeat split; try lia. assumption.
  - intros (dx & dy & (Hdx & Hdy & Hcr) & -> & ->). exists a. split; [apply in_zrange; assumption|].
    apply in_flat_map. exists b. split; [apply in_zrange; assumption|]. apply in_flat_map.
    exists (a + dx, b + dy). split; [|left; reflexivity]. apply in_points.
    rewrite Hs. replace (b + dy - b) with (a * 0 + dy) by lia. repeat split; try lia. assumption.
Qed.

(** The matrix of the 2D automaton, entry by entry. [dec] decides the offset relation. *)
Lemma adj2d_entries rows cols r nb crit : 0 < rows -> 0 < cols -> 9 <= rows * cols ->
  (nb = "von Neumann" /\ crit = crit_von_neumann \/ nb = "Moore" /\ crit = crit_moore \/ nb = "Hex" /\ crit = crit_hex) ->
  exists M, adj_cellular_automaton2d rows cols r nb "periodic" = Ok M /\ is_square (rows * cols) M /\
    forall a b c d, 0 <= a < rows -> 0 <= b < cols -> 0 <= c < rows -> 0 <= d < cols ->
      (torus_step rows cols (crit_offset crit r a) a b c d /\ at_ M (cell cols a b) (cell cols c d) = Some 1) \/
      (~ torus_step rows cols (crit_offset crit r a) a b c d /\ at_ M (cell cols a b) (cell cols c d) = Some 0).
Proof.
  intros Hr Hc Hn Hnb. destruct (adj2d_bin rows cols r nb crit Hr Hc Hn Hnb) as (M & E & HM). exists M.
  split; [assumption|]. split; [exact (proj1 HM)|]. intros a b c d Ha Hb Hc' Hd.
  assert (Hs : crit_shift crit).
  { destruct crit_shift_all as (S1 & S2 & S3). destruct Hnb as [[_ ->]|[[_ ->]|[_ ->]]]; assumption. }
  rewrite <- (writes_torus rows cols r crit a b c d Hr Hc Hs Ha Hb Hc' Hd).
  destruct HM as [_ He]. rewrite He by (apply cell_bound; assumption).
  destruct (in_dec eqd _ _) as [H1|H1]; [left|right]; auto.
Qed.
