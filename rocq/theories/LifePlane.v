(** * Proofs: Life on a large enough torus is Life on the plane *)
From Verif Require Import Py PyFacts ListFacts RulesSpec LifeSpec.
Open Scope list_scope.
Open Scope Z_scope.

Lemma lit_In P c : lit P c = true <-> In c P.
Proof.
  unfold lit. rewrite existsb_exists. split.
  - intros ([x y] & Hin & E). destruct c as [a b]. cbn [fst snd] in E. apply andb_true_iff in E. destruct E as [E1 E2]. apply Z.eqb_eq in E1, E2. subst. assumption.
  - intros Hin. exists c. split; [assumption|]. rewrite !Z.eqb_refl. reflexivity.
Qed.

Lemma same_mod n x x' : 0 < n -> x mod n = x' mod n -> - n < x - x' < n -> x = x'.
Proof.
  intros Hn E H. pose proof (Z.div_mod x n ltac:(lia)) as E1. pose proof (Z.div_mod x' n ltac:(lia)) as E2. rewrite E in E1.
  assert (x / n = x' / n) by nia. lia.
Qed.

Lemma filter_length_ext {X Y} (f : X -> bool) (g : Y -> bool) l l' : Forall2 (fun x y => f x = g y) l l' -> length (filter f l) = length (filter g l').
Proof. induction 1 as [|x y l l' E Hf IH]; [reflexivity|]. cbn [filter]. rewrite E. destruct (g y); cbn [length]; congruence. Qed.

Lemma Forall2_map_same {X Y Z'} (R : Y -> Z' -> Prop) (f : X -> Y) (g : X -> Z') l : (forall x, In x l -> R (f x) (g x)) -> Forall2 R (map f l) (map g l).
Proof. induction l as [|x l IH]; intros Hl; constructor; [apply Hl; left; reflexivity|]. apply IH. intros y Hy. apply Hl. right. assumption. Qed.

Definition steps8 : list (Z * Z) := [(-1, -1); (-1, 0); (-1, 1); (0, -1); (0, 1); (1, -1); (1, 0); (1, 1)].
Lemma in_steps8 d : In d steps8 -> -1 <= fst d <= 1 /\ -1 <= snd d <= 1.
Proof. cbn. intros Hd. repeat (destruct Hd as [<-|Hd]; [cbn; lia|]). contradiction. Qed.

(** a cell with nothing near stays dead *)
Lemma far_dead P x y : (forall d, In d steps8 -> lit P (x + fst d, y + snd d) = false) -> lit P (x, y) = false -> lives_on P (x, y) = false.
Proof.
  intros Hd H0. unfold lives_on. rewrite H0.
  assert (E : filter (lit P) (surrounding (x, y)) = []).
  { unfold surrounding. fold steps8. cbn [fst snd]. revert Hd. generalize steps8. clear. induction l as [|d l IH]; intros Hd; [reflexivity|]. cbn [map filter].
    rewrite (Hd d) by (left; reflexivity). apply IH. intros; apply Hd; right; assumption. }
  rewrite E. reflexivity.
Qed.

Section Torus.
  Context (rows cols : Z) (Hr : 3 <= rows) (Hc : 3 <= cols).

  Lemma rolled_window P S x0 y0 x y : (forall x y, lit P (x, y) = true -> x0 <= x <= x0 + rows - 3 /\ y0 <= y <= y0 + cols - 3) -> rolled_up rows cols P S ->
    x0 - 2 <= x <= x0 + rows - 1 -> y0 - 2 <= y <= y0 + cols - 1 -> alive cols S (x mod rows, y mod cols) = lit P (x, y).
  Proof.
    intros Hb Hs Hx Hy. pose proof (Hs (x mod rows) (y mod cols) (Z.mod_pos_bound x rows ltac:(lia)) (Z.mod_pos_bound y cols ltac:(lia))) as HS.
    destruct (lit P (x, y)) eqn:El.
    - apply HS. exists x, y. auto.
    - destruct (alive cols S (x mod rows, y mod cols)) eqn:Ea; [|reflexivity]. destruct (proj1 HS eq_refl) as (x' & y' & E & E1 & E2). destruct (Hb _ _ E).
      apply same_mod in E1; [|lia|lia]. apply same_mod in E2; [|lia|lia]. congruence.
  Qed.

  Lemma conway_window P S x0 y0 x y : (forall x y, lit P (x, y) = true -> x0 <= x <= x0 + rows - 3 /\ y0 <= y <= y0 + cols - 3) -> rolled_up rows cols P S ->
    x0 - 1 <= x <= x0 + rows - 2 -> y0 - 1 <= y <= y0 + cols - 2 -> conway rows cols S (x mod rows) (y mod cols) = lives_on P (x, y).
  Proof.
    intros Hb Hs Hx Hy. unfold conway, lives_on. rewrite (rolled_window P S x0 y0 x y Hb Hs) by lia.
    assert (E : length (filter (alive cols S) (eight rows cols (x mod rows) (y mod cols))) = length (filter (lit P) (surrounding (x, y)))).
    { apply filter_length_ext. unfold eight, surrounding. fold steps8. apply Forall2_map_same. intros d Hd. apply in_steps8 in Hd. cbn [fst snd].
      rewrite !Zplus_mod_idemp_l. apply (rolled_window P S x0 y0); [assumption|assumption|lia|lia]. }
    rewrite E. reflexivity.
  Qed.

  Lemma plane_step P Q S S' : fits rows cols P -> rolled_up rows cols P S -> generation P Q ->
    (forall a b, 0 <= a < rows -> 0 <= b < cols -> alive cols S' (a, b) = conway rows cols S a b) -> rolled_up rows cols Q S'.
  Proof.
    intros (x0 & y0 & Hb) Hs Hg HS a b Ha Hb'. rewrite HS by assumption. split.
    - intros E. set (x := x0 - 1 + (a - (x0 - 1)) mod rows). set (y := y0 - 1 + (b - (y0 - 1)) mod cols).
      pose proof (Z.mod_pos_bound (a - (x0 - 1)) rows ltac:(lia)). pose proof (Z.mod_pos_bound (b - (y0 - 1)) cols ltac:(lia)).
      assert (Ex : x mod rows = a) by (unfold x; rewrite Zplus_mod_idemp_r; replace (x0 - 1 + (a - (x0 - 1))) with a by lia; apply Z.mod_small; lia).
      assert (Ey : y mod cols = b) by (unfold y; rewrite Zplus_mod_idemp_r; replace (y0 - 1 + (b - (y0 - 1))) with b by lia; apply Z.mod_small; lia).
      exists x, y. split; [|auto]. rewrite (Hg (x, y)), <- (conway_window P S x0 y0 x y Hb Hs) by (unfold x, y; lia). rewrite Ex, Ey. assumption.
    - intros (x & y & E & -> & ->). rewrite (Hg (x, y)) in E.
      assert (Hx : x0 - 1 <= x <= x0 + rows - 2 /\ y0 - 1 <= y <= y0 + cols - 2).
      { destruct (lit P (x, y)) eqn:E0; [apply Hb in E0; lia|].
        destruct (existsb (fun d => lit P (x + fst d, y + snd d)) steps8) eqn:Ex.
        - apply existsb_exists in Ex. destruct Ex as (d & Hd & E1). apply in_steps8 in Hd. apply Hb in E1. lia.
        - rewrite far_dead in E; [discriminate| |assumption]. intros d Hd. destruct (lit P (x + fst d, y + snd d)) eqn:E1; [|reflexivity].
          assert (existsb (fun d => lit P (x + fst d, y + snd d)) steps8 = true) by (apply existsb_exists; eauto). congruence. }
      rewrite (conway_window P S x0 y0 x y Hb Hs) by lia. assumption.
  Qed.
End Torus.

(** ** computing generations *)
Definition next_pattern (P : pattern) : pattern := filter (lives_on P) (P ++ concat (map surrounding P)).

Lemma surrounding_sym x y c : In c (surrounding (x, y)) -> In (x, y) (surrounding c).
Proof.
  unfold surrounding. fold steps8. cbn [fst snd]. rewrite in_map_iff. intros (d & <- & Hd). apply in_map_iff. exists (- fst d, - snd d). cbn [fst snd]. split; [f_equal; lia|].
  cbn in Hd. repeat (destruct Hd as [<-|Hd]; [cbn; tauto|]). contradiction.
Qed.

Lemma next_pattern_ok P : generation P (next_pattern P).
Proof.
  intros [x y]. destruct (lives_on P (x, y)) eqn:E.
  - apply lit_In. unfold next_pattern. apply filter_In. split; [|assumption]. apply in_or_app.
    destruct (lit P (x, y)) eqn:E0; [left; apply lit_In; assumption|right]. apply in_concat.
    unfold lives_on in E. rewrite E0 in E. destruct (filter (lit P) (surrounding (x, y))) as [|c l] eqn:Ef; [discriminate|].
    assert (Hc : In c (filter (lit P) (surrounding (x, y)))) by (rewrite Ef; left; reflexivity). apply filter_In in Hc. destruct Hc as [Hc Hl].
    exists (surrounding c). split; [apply in_map, lit_In; assumption|]. apply surrounding_sym. assumption.
  - destruct (lit (next_pattern P) (x, y)) eqn:E0; [|reflexivity]. apply lit_In, filter_In in E0. destruct E0. congruence.
Qed.

Definition same_cells (P Q : pattern) : bool := forallb (lit Q) P && forallb (lit P) Q.
Lemma same_cells_ok P Q : same_cells P Q = true -> forall c, lit P c = lit Q c.
Proof.
  intros E c. apply andb_true_iff in E. destruct E as [E1 E2]. rewrite forallb_forall in E1, E2. destruct (lit P c) eqn:EP, (lit Q c) eqn:EQ; try reflexivity.
  - apply lit_In in EP. apply E1 in EP. congruence.
  - apply lit_In in EQ. apply E2 in EQ. congruence.
Qed.

Lemma lit_moved i j P x y : lit (moved i j P) (x, y) = lit P (x - i, y - j).
Proof.
  unfold lit, moved. cbn [fst snd]. induction P as [|c P IH]; [reflexivity|]. cbn [map existsb fst snd]. rewrite IH. f_equal. f_equal.
  - destruct (Z.eqb_spec (fst c + i) x), (Z.eqb_spec (fst c) (x - i)); lia.
  - destruct (Z.eqb_spec (snd c + j) y), (Z.eqb_spec (snd c) (y - j)); lia.
Qed.

Lemma lives_moved i j P x y : lives_on (moved i j P) (x, y) = lives_on P (x - i, y - j).
Proof.
  unfold lives_on. rewrite lit_moved.
  assert (E : length (filter (lit (moved i j P)) (surrounding (x, y))) = length (filter (lit P) (surrounding (x - i, y - j)))).
  { apply filter_length_ext. unfold surrounding. fold steps8. apply Forall2_map_same. intros d _. cbn [fst snd]. rewrite lit_moved. f_equal. f_equal; lia. }
  rewrite E. reflexivity.
Qed.

Lemma generation_moved i j P Q : generation P Q -> generation (moved i j P) (moved i j Q).
Proof. intros Hg [x y]. rewrite lit_moved, lives_moved. apply Hg. Qed.

Lemma lives_ext P P' : (forall c, lit P c = lit P' c) -> forall c, lives_on P c = lives_on P' c.
Proof.
  intros E c. unfold lives_on. rewrite E. assert (Ef : filter (lit P) (surrounding c) = filter (lit P') (surrounding c)) by (apply filter_ext; intros; apply E). rewrite Ef. reflexivity.
Qed.
Lemma generation_ext P P' Q Q' : (forall c, lit P c = lit P' c) -> (forall c, lit Q c = lit Q' c) -> generation P Q -> generation P' Q'.
Proof. intros EP EQ Hg c. rewrite <- EQ, <- (lives_ext P P' EP). apply Hg. Qed.

Lemma generation_check P Q : same_cells (next_pattern P) Q = true -> generation P Q.
Proof. intros E. exact (generation_ext P P _ Q (fun _ => eq_refl) (same_cells_ok _ _ E) (next_pattern_ok P)). Qed.

Lemma moved_moved i j i' j' P : moved i j (moved i' j' P) = moved (i' + i) (j' + j) P.
Proof. unfold moved. rewrite map_map. apply map_ext. intros c. cbn [fst snd]. f_equal; lia. Qed.

(** a pattern inside a box fits wherever it is moved *)
Definition inside (h w : Z) (P : pattern) : bool := forallb (fun c => (0 <=? fst c) && (fst c <? h) && (0 <=? snd c) && (snd c <? w)) P.
Lemma inside_fits rows cols h w i j P : inside h w P = true -> h + 2 <= rows -> w + 2 <= cols -> fits rows cols (moved i j P).
Proof.
  intros E Hr Hc. exists i, j. intros x y Hl. rewrite lit_moved in Hl. apply lit_In in Hl. unfold inside in E. rewrite forallb_forall in E. apply E in Hl.
  cbn [fst snd] in Hl. rewrite !andb_true_iff, !Z.leb_le, !Z.ltb_lt in Hl. lia.
Qed.
Lemma fits_ext rows cols P Q : (forall c, lit P c = lit Q c) -> fits rows cols P -> fits rows cols Q.
Proof. intros E (x0 & y0 & Hb). exists x0, y0. intros x y Hl. apply Hb. rewrite E. assumption. Qed.
