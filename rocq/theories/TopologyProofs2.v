(** * Proofs: Moore, von Neumann and hexagonal adjacency matrices. *)
From Verif Require Import Py PyFacts ListFacts Topology TopologySpec TopologyProofs.
Open Scope string_scope.
Open Scope Z_scope.

Lemma torus_ext rows cols (P Q : Z -> Z -> Prop) a b c d :
  (forall dx dy, P dx dy <-> Q dx dy) -> torus_step rows cols P a b c d <-> torus_step rows cols Q a b c d.
Proof. intros Hpq. unfold torus_step. split; intros (dx & dy & Hp & Hc & Hd); exists dx, dy; rewrite Hpq in *; auto. Qed.

Lemma back_mod m x y d : 0 <= x < m -> y = (x + d) mod m -> x = (y + - d) mod m.
Proof. intros Hx ->. rewrite Zplus_mod_idemp_l. replace (x + d + - d) with x by lia. symmetry. apply Z.mod_small. assumption. Qed.

Lemma torus_sym rows cols (P : Z -> Z -> Prop) a b c d :
  (forall dx dy, P dx dy -> P (- dx) (- dy)) -> 0 <= a < rows -> 0 <= b < cols ->
  torus_step rows cols P a b c d -> torus_step rows cols P c d a b.
Proof.
  intros Hp Ha Hb (dx & dy & H1 & Hc & Hd). exists (- dx), (- dy). split; [auto|]. split; apply back_mod; assumption.
Qed.

Lemma moore_crit r a dx dy : crit_offset crit_moore r a dx dy <-> moore_offset r dx dy.
Proof.
  unfold crit_offset, crit_moore, moore_offset. rewrite andb_true_iff, !Z.leb_le.
  replace (a + dx - a) with dx by lia. replace (a * 0 + dy - 0) with dy by lia. tauto.
Qed.
Lemma von_neumann_crit r a dx dy : crit_offset crit_von_neumann r a dx dy <-> von_neumann_offset r dx dy.
Proof.
  unfold crit_offset, crit_von_neumann, von_neumann_offset. rewrite Z.leb_le.
  replace (a + dx - a) with dx by lia. replace (a * 0 + dy - 0) with dy by lia. lia.
Qed.

Lemma parity a : (a + 1) mod 2 =? 0 = negb (Z.even a).
Proof.
  rewrite <- Z.negb_odd, negb_involutive. rewrite Z.odd_spec || idtac.
  destruct (Z.odd a) eqn:E.
  - apply Z.odd_spec in E. destruct E as [q ->]. apply Z.eqb_eq. replace (2 * q + 1 + 1) with ((q + 1) * 2) by lia. apply Z.mod_mul. lia.
  - assert (E2 : Z.even a = true) by (rewrite <- Z.negb_odd, E; reflexivity). apply Z.even_spec in E2. destruct E2 as [q ->].
    apply Z.eqb_neq. replace (2 * q + 1) with (1 + q * 2) by lia. rewrite Z.mod_add by lia. discriminate.
Qed.

Lemma hex_crit a dx dy : crit_offset crit_hex 1 a dx dy <-> hex_offset a dx dy.
Proof.
  unfold crit_offset, crit_hex, hex_offset. rewrite parity.
  replace (a + dx - a) with dx by lia. replace (a * 0 + dy - 0) with dy by lia. replace (0 - (a * 0 + dy)) with (- dy) by lia.
  split.
  - intros (Hx & Hy & Hc).
    assert (Ex : dx = -1 \/ dx = 0 \/ dx = 1) by lia. assert (Ey : dy = -1 \/ dy = 0 \/ dy = 1) by lia.
    destruct (Z.even a); destruct Ex as [->|[->| ->]]; destruct Ey as [->|[->| ->]]; cbn in Hc |- *; try discriminate; auto 10.
  - destruct (Z.even a); cbn [In]; intros Hin;
      repeat (destruct Hin as [Hin|Hin]; [injection Hin as <- <-; cbn; repeat split; lia|]); contradiction.
Qed.

Definition known_nb (nb : string) : Prop := nb = "von Neumann" \/ nb = "Moore" \/ nb = "Hex".

(** C11 *)
Lemma adj2d_moore rows cols r : 0 < rows -> 0 < cols -> 9 <= rows * cols ->
  exists M, adj_cellular_automaton2d rows cols r "Moore" "periodic" = Ok M /\ is_square (rows * cols) M /\
    forall a b c d, 0 <= a < rows -> 0 <= b < cols -> 0 <= c < rows -> 0 <= d < cols ->
      let adjacent := torus_step rows cols (moore_offset r) a b c d in
      (adjacent -> at_ M (a * cols + b) (c * cols + d) = Some 1) /\
      (~ adjacent -> at_ M (a * cols + b) (c * cols + d) = Some 0).
Proof.
  intros Hr Hc Hn. destruct (adj2d_entries rows cols r "Moore" crit_moore Hr Hc Hn) as (M & E & Hs & He); [auto|].
  exists M. split; [assumption|]. split; [assumption|]. intros a b c d Ha Hb Hc' Hd adjacent.
  specialize (He a b c d Ha Hb Hc' Hd). rewrite (torus_ext rows cols _ _ a b c d (moore_crit r a)) in He. subst adjacent.
  unfold cell in He. tauto.
Qed.
Lemma adj2d_von_neumann rows cols r : 0 < rows -> 0 < cols -> 9 <= rows * cols ->
  exists M, adj_cellular_automaton2d rows cols r "von Neumann" "periodic" = Ok M /\ is_square (rows * cols) M /\
    forall a b c d, 0 <= a < rows -> 0 <= b < cols -> 0 <= c < rows -> 0 <= d < cols ->
      let adjacent := torus_step rows cols (von_neumann_offset r) a b c d in
      (adjacent -> at_ M (a * cols + b) (c * cols + d) = Some 1) /\
      (~ adjacent -> at_ M (a * cols + b) (c * cols + d) = Some 0).
Proof.
  intros Hr Hc Hn. destruct (adj2d_entries rows cols r "von Neumann" crit_von_neumann Hr Hc Hn) as (M & E & Hs & He); [auto|].
  exists M. split; [assumption|]. split; [assumption|]. intros a b c d Ha Hb Hc' Hd adjacent.
  specialize (He a b c d Ha Hb Hc' Hd). rewrite (torus_ext rows cols _ _ a b c d (von_neumann_crit r a)) in He. subst adjacent.
  unfold cell in He. tauto.
Qed.

Lemma sym_by_cells rows cols (M : list (list Z)) : 0 < rows -> 0 < cols ->
  (forall a b c d, 0 <= a < rows -> 0 <= b < cols -> 0 <= c < rows -> 0 <= d < cols ->
     at_ M (cell cols a b) (cell cols c d) = at_ M (cell cols c d) (cell cols a b)) ->
  forall i j, 0 <= i < rows * cols -> 0 <= j < rows * cols -> at_ M i j = at_ M j i.
Proof.
  intros Hr Hc Hs i j Hi Hj. destruct (cell_surj rows cols i Hc Hi) as (Ei & Ha & Hb).
  destruct (cell_surj rows cols j Hc Hj) as (Ej & Hc' & Hd). rewrite Ei, Ej. apply Hs; assumption.
Qed.

Lemma adj2d_symmetric rows cols r nb M : nb = "Moore" \/ nb = "von Neumann" ->
  adj_cellular_automaton2d rows cols r nb "periodic" = Ok M -> 0 < rows -> 0 < cols -> 9 <= rows * cols ->
  forall i j, 0 <= i < rows * cols -> 0 <= j < rows * cols -> at_ M i j = at_ M j i.
Proof.
  intros Hnb E Hr Hc Hn. apply sym_by_cells; [assumption|assumption|]. intros a b c d Ha Hb Hc' Hd.
  destruct Hnb as [-> | ->].
  - destruct (adj2d_entries rows cols r "Moore" crit_moore Hr Hc Hn) as (M' & E' & Hs & He); [auto|].
    rewrite E in E'. injection E' as <-.
    pose proof (He a b c d Ha Hb Hc' Hd) as H1. pose proof (He c d a b Hc' Hd Ha Hb) as H2.
    rewrite (torus_ext rows cols _ _ _ _ _ _ (moore_crit r a)) in H1. rewrite (torus_ext rows cols _ _ _ _ _ _ (moore_crit r c)) in H2.
    assert (Hsym : forall dx dy, moore_offset r dx dy -> moore_offset r (- dx) (- dy)) by (unfold moore_offset; lia).
    pose proof (torus_sym rows cols _ a b c d Hsym Ha Hb). pose proof (torus_sym rows cols _ c d a b Hsym Hc' Hd).
    destruct H1 as [[? ->]|[? ->]], H2 as [[? ->]|[? ->]]; tauto.
  - destruct (adj2d_entries rows cols r "von Neumann" crit_von_neumann Hr Hc Hn) as (M' & E' & Hs & He); [auto|].
    rewrite E in E'. injection E' as <-.
    pose proof (He a b c d Ha Hb Hc' Hd) as H1. pose proof (He c d a b Hc' Hd Ha Hb) as H2.
    rewrite (torus_ext rows cols _ _ _ _ _ _ (von_neumann_crit r a)) in H1. rewrite (torus_ext rows cols _ _ _ _ _ _ (von_neumann_crit r c)) in H2.
    assert (Hsym : forall dx dy, von_neumann_offset r dx dy -> von_neumann_offset r (- dx) (- dy)) by (unfold von_neumann_offset; lia).
    pose proof (torus_sym rows cols _ a b c d Hsym Ha Hb). pose proof (torus_sym rows cols _ c d a b Hsym Hc' Hd).
    destruct H1 as [[? ->]|[? ->]], H2 as [[? ->]|[? ->]]; tauto.
Qed.

Lemma adj2d_errors rows cols r nb boundary :
  (rows * cols < 9 -> adj_cellular_automaton2d rows cols r nb boundary = Err (Raise "There must be at least 9 cells")) /\
  (9 <= rows * cols -> boundary <> "periodic" ->
     adj_cellular_automaton2d rows cols r nb boundary = Err (Raise "unsupported boundary condition")) /\
  (9 <= rows * cols -> nb <> "von Neumann" -> nb <> "Moore" -> nb <> "Hex" ->
     adj_cellular_automaton2d rows cols r nb "periodic" = Err (Raise "neighbourhood type not supported")) /\
  (9 <= rows * cols -> rows < 0 -> known_nb nb -> adj_cellular_automaton2d rows cols r nb "periodic" = Err ValueError).
Proof.
  unfold adj_cellular_automaton2d, known_nb. repeat split.
  - intros Hn. destruct (rows * cols <? 9) eqn:E; [reflexivity|lia].
  - intros Hn Hb. destruct (rows * cols <? 9) eqn:E; [lia|]. destruct (eqb_spec boundary "periodic"); [contradiction|reflexivity].
  - intros Hn H1 H2 H3. destruct (rows * cols <? 9) eqn:E; [lia|]. rewrite eqb_refl.
    destruct (eqb_spec nb "von Neumann"); [contradiction|]. destruct (eqb_spec nb "Moore"); [contradiction|].
    destruct (eqb_spec nb "Hex"); [contradiction|reflexivity].
  - intros Hn Hr Hk. destruct (rows * cols <? 9) eqn:E; [lia|]. rewrite eqb_refl.
    destruct (rows <? 0) eqn:E2; [|lia]. destruct Hk as [->|[->| ->]]; reflexivity.
Qed.

(** C12 *)
Lemma adj2d_hex1 rows cols : 0 < rows -> 0 < cols -> 9 <= rows * cols ->
  exists M, adj_cellular_automaton2d rows cols 1 "Hex" "periodic" = Ok M /\ is_square (rows * cols) M /\
    forall a b c d, 0 <= a < rows -> 0 <= b < cols -> 0 <= c < rows -> 0 <= d < cols ->
      let adjacent := torus_step rows cols (hex_offset a) a b c d in
      (adjacent -> at_ M (a * cols + b) (c * cols + d) = Some 1) /\
      (~ adjacent -> at_ M (a * cols + b) (c * cols + d) = Some 0).
Proof.
  intros Hr Hc Hn. destruct (adj2d_entries rows cols 1 "Hex" crit_hex Hr Hc Hn) as (M & E & Hs & He); [auto|].
  exists M. split; [assumption|]. split; [assumption|]. intros a b c d Ha Hb Hc' Hd adjacent.
  specialize (He a b c d Ha Hb Hc' Hd). rewrite (torus_ext rows cols _ _ a b c d (hex_crit a)) in He. subst adjacent.
  unfold cell in He. tauto.
Qed.

Lemma even_mod_even m x : Z.even m = true -> 0 < m -> Z.even (x mod m) = Z.even x.
Proof.
  intros Hm Hp. rewrite (Z.div_mod x m) at 2 by lia. rewrite Z.even_add, Z.even_mul, Hm. cbn.
  destruct (Z.even (x mod m)); reflexivity.
Qed.

Lemma hex_step_sym rows cols a b c d : 0 < rows -> Z.even rows = true -> 0 <= a < rows -> 0 <= b < cols ->
  torus_step rows cols (hex_offset a) a b c d -> torus_step rows cols (hex_offset c) c d a b.
Proof.
  intros Hr Her Ha Hb (dx & dy & H1 & Hc & Hd). exists (- dx), (- dy).
  split; [|split; apply back_mod; assumption].
  assert (Ec : Z.even c = Bool.eqb (Z.even a) (Z.even dx)) by (rewrite Hc, even_mod_even by assumption; apply Z.even_add).
  unfold hex_offset in *. rewrite Ec. destruct (Z.even a); cbn [In] in H1;
    repeat (destruct H1 as [H1|H1]; [injection H1 as <- <-; cbn; auto 10|]); contradiction.
Qed.

Lemma hex_symmetric rows cols M : adj_cellular_automaton2d rows cols 1 "Hex" "periodic" = Ok M ->
  0 < rows -> 0 < cols -> 9 <= rows * cols -> Z.even rows = true ->
  forall i j, 0 <= i < rows * cols -> 0 <= j < rows * cols -> at_ M i j = at_ M j i.
Proof.
  intros E Hr Hc Hn Hev. apply sym_by_cells; [assumption|assumption|]. intros a b c d Ha Hb Hc' Hd.
  destruct (adj2d_entries rows cols 1 "Hex" crit_hex Hr Hc Hn) as (M' & E' & Hs & He); [auto|].
  rewrite E in E'. injection E' as <-.
  pose proof (He a b c d Ha Hb Hc' Hd) as H1. pose proof (He c d a b Hc' Hd Ha Hb) as H2.
  rewrite (torus_ext rows cols _ _ _ _ _ _ (hex_crit a)) in H1. rewrite (torus_ext rows cols _ _ _ _ _ _ (hex_crit c)) in H2.
  pose proof (hex_step_sym rows cols a b c d Hr Hev Ha Hb). pose proof (hex_step_sym rows cols c d a b Hr Hev Hc' Hd).
  destruct H1 as [[? ->]|[? ->]], H2 as [[? ->]|[? ->]]; tauto.
Qed.

Lemma hex_asymmetric rows cols M : adj_cellular_automaton2d rows cols 1 "Hex" "periodic" = Ok M ->
  3 <= rows -> 3 <= cols -> Z.even rows = false ->
  at_ M 0 ((rows - 1) * cols + 1) = Some 1 /\ at_ M ((rows - 1) * cols + 1) 0 = Some 0.
Proof.
  intros E Hr Hc Hev. assert (Hn : 9 <= rows * cols) by nia.
  destruct (adj2d_hex1 rows cols ltac:(lia) ltac:(lia) Hn) as (M' & E' & Hs & He). rewrite E in E'. injection E' as <-.
  assert (Eo : Z.even (rows - 1) = true).
  { rewrite Z.even_sub, Hev. reflexivity. }
  split.
  - pose proof (proj1 (He 0 0 (rows - 1) 1 ltac:(lia) ltac:(lia) ltac:(lia) ltac:(lia))) as H1.
    replace (0 * cols + 0) with 0 in H1 by lia. apply H1.
    exists (-1), 1. split; [cbn; auto 10|]. split.
    + change (0 + -1) with (-1). apply (Z.mod_unique_pos _ _ (-1)); lia.
    + symmetry. apply Z.mod_small. lia.
  - pose proof (proj2 (He (rows - 1) 1 0 0 ltac:(lia) ltac:(lia) ltac:(lia) ltac:(lia))) as H1.
    replace (0 * cols + 0) with 0 in H1 by lia. apply H1. clear H1.
    intros (dx & dy & Ho & H1 & H2). unfold hex_offset in Ho. rewrite Eo in Ho. cbn [In] in Ho.
    assert (Hx : dx = 1).
    { assert (Hb : dx = -1 \/ dx = 0 \/ dx = 1) by (repeat (destruct Ho as [Ho|Ho]; [injection Ho as <- <-; auto|]); contradiction).
      symmetry in H1. rewrite Z.mod_divide in H1 by lia. destruct H1 as [q Hq].
      destruct Hb as [->|[->| ->]]; [| |reflexivity]; exfalso.
      - assert (q = 0 \/ q < 0 \/ 0 < q) by lia. nia.
      - assert (q = 0 \/ q < 0 \/ 0 < q) by lia. nia. }
    subst dx.
    assert (Hy : dy = 0 \/ dy = 1).
    { clear - Ho. repeat (destruct Ho as [Ho|Ho]; [inversion Ho; auto|]). contradiction. }
    symmetry in H2. rewrite Z.mod_small in H2 by lia. lia.
Qed.

(** ** Number of neighbours *)

Lemma zsum_indicator {A} (p : A -> bool) (l : list A) :
  zsum (map (fun x => if p x then 1 else 0) l) = Z.of_nat (length (filter p l)).
Proof. induction l as [|x xs IH]; cbn [map zsum filter]; [reflexivity|]. rewrite IH. destruct (p x); cbn [length]; lia. Qed.

Lemma row_of k W M i row : bin k W M -> 0 <= i < k -> nth_error M (Z.to_nat i) = Some row ->
  row = map (fun j => if in_dec eqd (i, j) W then 1 else 0) (zrange 0 k).
Proof.
  intros [[Hl Hr] He] Hi E. assert (Hrow := Hr row (nth_error_In _ _ E)).
  apply nth_error_ext. intros q. destruct (Nat.lt_ge_cases q (Z.to_nat k)) as [Hq|Hq].
  - specialize (He i (Z.of_nat q) Hi ltac:(lia)). unfold at_ in He. rewrite E in He.
    replace (Z.to_nat (Z.of_nat q)) with q in He by lia. rewrite He.
    replace q with (Z.to_nat (Z.of_nat q)) at 2 by lia. rewrite nth_error_map_zrange by lia. reflexivity.
  - rewrite (proj2 (nth_error_None row q)) by lia. symmetry. apply nth_error_None.
    rewrite map_length, length_zrange. lia.
Qed.

Lemma NoDup_concat_window {A} (f : Z -> list A) l :
  NoDup l -> (forall x, In x l -> NoDup (f x)) -> (forall x y a, In x l -> In y l -> In a (f x) -> In a (f y) -> x = y) ->
  NoDup (concat (map f l)).
Proof.
  induction l as [|x xs IH]; intros Hnd Hf Hd; cbn; [constructor|]. inversion Hnd as [|? ? Hx Hxs]; subst.
  assert (Hrest : NoDup (concat (map f xs))).
  { apply IH; [assumption|intros y Hy; apply Hf; right; assumption|].
    intros y z a Hy Hz. apply Hd; right; assumption. }
  assert (Hfx : NoDup (f x)) by (apply Hf; left; reflexivity).
  assert (Hdis : forall a, In a (f x) -> ~ In a (concat (map f xs))).
  { intros a Ha Hin. apply in_concat in Hin. destruct Hin as (l0 & Hl0 & Hin). apply in_map_iff in Hl0.
    destruct Hl0 as (y & <- & Hy). apply Hx.
    rewrite (Hd x y a (or_introl eq_refl) (or_intror Hy) Ha Hin). assumption. }
  clear - Hfx Hrest Hdis. induction (f x) as [|a l IHl]; cbn; [assumption|].
  inversion Hfx; subst. constructor.
  - rewrite in_app_iff. intros [Hin|Hin]; [contradiction|]. apply (Hdis a); [left; reflexivity|assumption].
  - apply IHl; [assumption|]. intros b Hb. apply Hdis. right. assumption.
Qed.

Lemma NoDup_points a b r crit k : NoDup (get_neighbourhood_points2d a b r crit k).
Proof.
  unfold get_neighbourhood_points2d. rewrite map_map. apply NoDup_concat_window.
  - apply NoDup_zrange.
  - intros x Hx. apply NoDup_filter. apply FinFun.Injective_map_NoDup; [|apply NoDup_zrange]. intros y z E. congruence.
  - intros x y p Hx Hy H1 H2. apply filter_In in H1, H2. destruct H1 as [H1 _], H2 as [H2 _].
    apply in_map_iff in H1, H2. destruct H1 as (u & <- & _), H2 as (v & E & _). congruence.
Qed.

Lemma mod_window m x y r c : 0 < m -> 2 * r + 1 <= m -> c - r <= x <= c + r -> c - r <= y <= c + r -> x mod m = y mod m -> x = y.
Proof.
  intros Hm Hr Hx Hy E. assert (E2 : (x - y) mod m = 0) by (rewrite Zminus_mod, E, Z.sub_diag; apply Z.mod_0_l; lia).
  rewrite Z.mod_divide in E2 by lia. destruct E2 as [q Hq]. assert (q = 0 \/ q < 0 \/ 0 < q) by lia. nia.
Qed.

(** on a torus at least as large as the neighbourhood window no two points coincide, so a row of the matrix has as many
    1s as the window has points *)
Lemma row_count rows cols r nb crit M i : 0 <= r -> 2 * r + 1 <= rows -> 2 * r + 1 <= cols -> 9 <= rows * cols ->
  (nb = "von Neumann" /\ crit = crit_von_neumann \/ nb = "Moore" /\ crit = crit_moore \/ nb = "Hex" /\ crit = crit_hex) ->
  adj_cellular_automaton2d rows cols r nb "periodic" = Ok M -> 0 <= i < rows * cols ->
  exists row, nth_error M (Z.to_nat i) = Some row /\
    zsum row = Z.of_nat (length (get_neighbourhood_points2d (i / cols) (i mod cols) r crit (i / cols + 1))).
Proof.
  intros Hr0 Hr Hc Hn Hnb E Hi.
  destruct (adj2d_bin rows cols r nb crit ltac:(lia) ltac:(lia) Hn Hnb) as (M' & E' & HM). rewrite E in E'. injection E' as <-.
  destruct (nth_error M (Z.to_nat i)) as [row|] eqn:Er.
  2:{ apply nth_error_None in Er. destruct HM as [[Hl _] _]. lia. }
  exists row. split; [reflexivity|]. rewrite (row_of _ _ _ _ _ HM Hi Er).
  destruct (cell_surj rows cols i ltac:(lia) Hi) as (Ei & Ha & Hb).
  set (a := i / cols) in *. set (b := i mod cols) in *.
  match goal with |- zsum (map (fun j => if in_dec eqd (i, j) ?W then 1 else 0) _) = _ => set (W0 := W) in * end.
  erewrite map_ext with (g := fun j => if (if in_dec eqd (i, j) W0 then true else false) then 1 else 0)
    by (intros j; destruct (in_dec eqd (i, j) W0); reflexivity).
  rewrite zsum_indicator. f_equal.
  rewrite <- (map_length (fun p => cell cols (fst p mod rows) (snd p mod cols)) (get_neighbourhood_points2d a b r crit (a + 1))).
  apply Permutation_length, NoDup_Permutation.
  - apply NoDup_filter, NoDup_zrange.
  - assert (Hinj : forall p q, In p (get_neighbourhood_points2d a b r crit (a + 1)) -> In q (get_neighbourhood_points2d a b r crit (a + 1)) ->
        cell cols (fst p mod rows) (snd p mod cols) = cell cols (fst q mod rows) (snd q mod cols) -> p = q).
    { intros [x y] [x' y'] Hp Hq Ecell. cbn [fst snd] in Ecell.
      apply in_points in Hp, Hq. apply cell_inj in Ecell; [|apply Z.mod_pos_bound; lia|apply Z.mod_pos_bound; lia].
      destruct Ecell as [E1 E2]. f_equal.
      - apply (mod_window rows x x' r a); lia.
      - apply (mod_window cols y y' r b); lia. }
    pose proof (NoDup_points a b r crit (a + 1)) as Hnd. clear - Hinj Hnd.
    induction (get_neighbourhood_points2d a b r crit (a + 1)) as [|p ps IH]; cbn [map]; constructor.
    + intros Hin. apply in_map_iff in Hin. destruct Hin as (q & Eq & Hq). inversion Hnd; subst.
      rewrite (Hinj p q (or_introl eq_refl) (or_intror Hq) (eq_sym Eq)) in *. contradiction.
    + inversion Hnd; subst. apply IH; [|assumption]. intros x y Hx Hy. apply Hinj; right; assumption.
  - intros j. rewrite filter_In, in_zrange, in_map_iff. split.
    + intros [Hj Hin]. destruct (in_dec eqd (i, j) W0) as [Hw|]; [|discriminate]. clear Hin.
      unfold W0 in Hw. apply in_flat_map in Hw. destruct Hw as (a' & Ha' & Hw). apply in_flat_map in Hw.
      destruct Hw as (b' & Hb' & Hw). apply in_flat_map in Hw. destruct Hw as ([x y] & Hp & Hw).
      destruct Hw as [Ew|[]]. injection Ew as Ew1 Ew2. apply in_zrange in Ha', Hb'. rewrite Ei in Ew1.
      apply cell_inj in Ew1; [|assumption|assumption]. destruct Ew1 as [-> ->]. exists (x, y). auto.
    + intros ([x y] & <- & Hp). cbn [fst snd]. split.
      * apply cell_bound; apply Z.mod_pos_bound; lia.
      * destruct (in_dec eqd _ W0) as [|Hnin]; [reflexivity|]. exfalso. apply Hnin. unfold W0.
        apply in_flat_map. exists a. split; [apply in_zrange; assumption|]. apply in_flat_map. exists b.
        split; [apply in_zrange; assumption|]. apply in_flat_map. exists (x, y). split; [assumption|].
        left. cbn [fst snd]. rewrite <- Ei. reflexivity.
Qed.

Lemma concat_map_length {A B} (f : A -> list B) l : length (concat (map f l)) = list_sum (map (fun x => length (f x)) l).
Proof. induction l as [|x xs IH]; cbn; [reflexivity|]. rewrite app_length, IH. reflexivity. Qed.

Lemma filter_map_length {A B} (p : B -> bool) (f : A -> B) l : length (filter p (map f l)) = length (filter (fun x => p (f x)) l).
Proof. induction l as [|x xs IH]; cbn; [reflexivity|]. destruct (p (f x)); cbn; congruence. Qed.

Lemma points_offsets a b r crit k :
  length (get_neighbourhood_points2d a b r crit k) =
  list_sum (map (fun dx => length (filter (fun dy => crit (a + dx) (b + dy) a b r k) (zrange (- r) (r + 1)))) (zrange (- r) (r + 1))).
Proof.
  unfold get_neighbourhood_points2d. rewrite map_map, concat_map_length.
  replace (zrange (a - r) (a + r + 1)) with (map (fun x => x + a) (zrange (- r) (r + 1))).
  2:{ rewrite <- zrange_shift. f_equal; lia. }
  replace (zrange (b - r) (b + r + 1)) with (map (fun x => x + b) (zrange (- r) (r + 1))).
  2:{ rewrite <- zrange_shift. f_equal; lia. }
  rewrite map_map. f_equal. apply map_ext. intros dx. rewrite !filter_map_length. f_equal. apply filter_ext. intros dy.
  cbn [fst snd]. f_equal; lia.
Qed.

Lemma hex_points a b r : length (get_neighbourhood_points2d a b r crit_hex (a + 1)) =
  list_sum (map (fun dx => length (filter (fun dy => (Z.abs dx + Z.abs dy <=? r) || (if Z.even a then - dy <? r else dy <? r))
                                 (zrange (- r) (r + 1)))) (zrange (- r) (r + 1))).
Proof.
  rewrite points_offsets. f_equal. apply map_ext. intros dx. f_equal. apply filter_ext. intros dy. unfold crit_hex.
  rewrite parity. replace (a + dx - a) with dx by lia. replace (b + dy - b) with dy by lia. replace (b - (b + dy)) with (- dy) by lia.
  destruct (Z.even a); reflexivity.
Qed.

Lemma hex_count1 rows cols M i : 3 <= rows -> 3 <= cols -> adj_cellular_automaton2d rows cols 1 "Hex" "periodic" = Ok M ->
  0 <= i < rows * cols -> exists row, nth_error M (Z.to_nat i) = Some row /\ zsum row = 7.
Proof.
  intros Hr Hc E Hi. destruct (row_count rows cols 1 "Hex" crit_hex M i ltac:(lia) ltac:(lia) ltac:(lia) ltac:(nia) ltac:(auto) E Hi) as (row & E1 & E2).
  exists row. split; [assumption|]. rewrite E2, hex_points. destruct (Z.even (i / cols)); reflexivity.
Qed.
Lemma hex_count2 rows cols M i : 5 <= rows -> 5 <= cols -> adj_cellular_automaton2d rows cols 2 "Hex" "periodic" = Ok M ->
  0 <= i < rows * cols -> exists row, nth_error M (Z.to_nat i) = Some row /\ zsum row = 21.
Proof.
  intros Hr Hc E Hi. destruct (row_count rows cols 2 "Hex" crit_hex M i ltac:(lia) ltac:(lia) ltac:(lia) ltac:(nia) ltac:(auto) E Hi) as (row & E1 & E2).
  exists row. split; [assumption|]. rewrite E2, hex_points. destruct (Z.even (i / cols)); reflexivity.
Qed.

(** every Moore neighbourhood that fits has (2r+1)^2 cells *)
Lemma moore_count rows cols r M i : 0 <= r -> 2 * r + 1 <= rows -> 2 * r + 1 <= cols -> 9 <= rows * cols ->
  adj_cellular_automaton2d rows cols r "Moore" "periodic" = Ok M ->
  0 <= i < rows * cols -> exists row, nth_error M (Z.to_nat i) = Some row /\ zsum row = (2 * r + 1) * (2 * r + 1).
Proof.
  intros H0 Hr Hc Hn E Hi. destruct (row_count rows cols r "Moore" crit_moore M i H0 Hr Hc Hn ltac:(auto) E Hi) as (row & E1 & E2).
  exists row. split; [assumption|]. rewrite E2, points_offsets.
  assert (Ef : forall l : list Z, (forall dx, In dx l -> - r <= dx <= r) ->
     list_sum (map (fun dx => length (filter (fun dy => crit_moore (i / cols + dx) (i mod cols + dy) (i / cols) (i mod cols) r (i / cols + 1)) (zrange (- r) (r + 1)))) l)
     = (length l * Z.to_nat (2 * r + 1))%nat).
  { induction l as [|x xs IH]; intros Hl; [reflexivity|]. cbn [map list_sum fold_right length]. fold (list_sum (map (fun dx => length (filter (fun dy => crit_moore (i / cols + dx) (i mod cols + dy) (i / cols) (i mod cols) r (i / cols + 1)) (zrange (- r) (r + 1)))) xs)).
    rewrite IH by (intros y Hy; apply Hl; right; assumption). rewrite filter_true, length_zrange.
    - replace (r + 1 - - r) with (2 * r + 1) by lia. lia.
    - intros y Hy. apply in_zrange in Hy. specialize (Hl x (or_introl eq_refl)). unfold crit_moore. rewrite andb_true_iff, !Z.leb_le. lia. }
  rewrite Ef by (intros dx Hdx; apply in_zrange in Hdx; lia). rewrite length_zrange. lia.
Qed.
