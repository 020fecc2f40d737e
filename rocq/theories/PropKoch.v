(** * C114: the Koch curve and the Sierpinski triangle of the demos *)
From Coq Require Import Ascii Lia Permutation Reals Lra.
From Verif Require Import Py PyFacts ListFacts Network Evolve Rules Subst PropSubst Turtle Plot PropTurtle PropRender LsysSpec Lsys LsysRun LsysDraw LsysLattice PropLsys.
Open Scope string_scope.
Open Scope list_scope.
Open Scope Z_scope.

(** ** Koch *)
Definition koch_move (c : ascii) : list lmove := if ascii_dec c "F" then [Ahead] else if ascii_dec c "+" then [Leftwards] else [Rightwards].
Definition koch_moves (T : Z) (n : nat) : list lmove := flat_map koch_move (generation (succ_word (koch T)) n (letters "F")).
Lemma koch_moves_S T n : let k := koch_moves T n in koch_moves T (S n) = k ++ [Leftwards] ++ k ++ [Rightwards] ++ k ++ [Rightwards] ++ k ++ [Leftwards] ++ k.
Proof. cbv zeta. unfold koch_moves. rewrite koch_step. cbv zeta. rewrite !flat_map_app. reflexivity. Qed.

Ltac pens := unfold put, place, turn, lstep, left_of, right_of, add; cbn [p_at p_to fst snd].
Lemma koch_end T n : pen_end (koch_moves T n) standard = mkPen (3 ^ Z.of_nat n, 0) (1, 0).
Proof.
  induction n as [|n IH]; [reflexivity|]. rewrite koch_moves_S. cbv zeta. rewrite !pen_end_app. set (k := koch_moves T n) in *. rewrite pow_S. set (m := 3 ^ Z.of_nat n) in *. rewrite IH.
  change (pen_end [Leftwards] (mkPen (m, 0) (1, 0))) with (mkPen (m, 0) (0, 1)). rewrite (end_at (mkPen (m, 0) (0, 1)) k), IH.
  match goal with |- context [pen_end [Rightwards] ?s] => replace (pen_end [Rightwards] s) with (mkPen (m, m) (1, 0)) by (cbn [pen_end fold_left]; pens; f_equal; f_equal; ring) end. rewrite (end_at (mkPen (m, m) (1, 0)) k), IH.
  match goal with |- context [pen_end [Rightwards] ?s] => replace (pen_end [Rightwards] s) with (mkPen (2 * m, m) (0, -1)) by (cbn [pen_end fold_left]; pens; f_equal; f_equal; ring) end. rewrite (end_at (mkPen (2 * m, m) (0, -1)) k), IH.
  match goal with |- context [pen_end [Leftwards] ?s] => replace (pen_end [Leftwards] s) with (mkPen (2 * m, 0) (1, 0)) by (cbn [pen_end fold_left]; pens; f_equal; f_equal; ring) end. rewrite (end_at (mkPen (2 * m, 0) (1, 0)) k), IH.
  pens. f_equal; f_equal; ring.
Qed.
(** the five copies *)
Definition koch_pens (m : Z) : list pen :=
  [standard; mkPen (m, 0) (0, 1); mkPen (m, m) (1, 0); mkPen (2 * m, m) (0, -1); mkPen (2 * m, 0) (1, 0)].
Lemma koch_segments_S T n : segments (koch_moves T (S n)) standard = flat_map (fun s => map (place2 s) (segments (koch_moves T n) standard)) (koch_pens (3 ^ Z.of_nat n)).
Proof.
  rewrite koch_moves_S. cbv zeta. set (k := koch_moves T n). pose proof (koch_end T n) as He. fold k in He. set (m := 3 ^ Z.of_nat n) in *.
  rewrite !segments_app. cbn [koch_pens flat_map]. rewrite app_nil_r. change (segments [Leftwards] ?s) with (@nil (point * point)). change (segments [Rightwards] ?s) with (@nil (point * point)). cbn [app].
  assert (H0 : forall s, s = standard -> map (place2 s) (segments k standard) = segments k standard) by (intros s ->; rewrite <- segments_at; reflexivity).
  rewrite (H0 standard eq_refl). f_equal. rewrite He.
  assert (E1 : pen_end [Leftwards] (mkPen (m, 0) (1, 0)) = mkPen (m, 0) (0, 1)) by reflexivity. rewrite E1.
  assert (E2 : pen_end [Rightwards] (pen_end k (mkPen (m, 0) (0, 1))) = mkPen (m, m) (1, 0)) by (rewrite (end_at _ k), He; cbn [pen_end fold_left]; pens; f_equal; f_equal; ring). rewrite E2.
  assert (E3 : pen_end [Rightwards] (pen_end k (mkPen (m, m) (1, 0))) = mkPen (2 * m, m) (0, -1)) by (rewrite (end_at _ k), He; cbn [pen_end fold_left]; pens; f_equal; f_equal; ring). rewrite E3.
  assert (E4 : pen_end [Leftwards] (pen_end k (mkPen (2 * m, m) (0, -1))) = mkPen (2 * m, 0) (1, 0)) by (rewrite (end_at _ k), He; cbn [pen_end fold_left]; pens; f_equal; f_equal; ring). rewrite E4.
  rewrite <- !segments_at. reflexivity.
Qed.

(** the triangle over the base of length [m] with height m / 2 *)
Definition under (m : Z) (z : point) : Prop := 0 <= snd z /\ snd z <= fst z /\ snd z <= m - fst z.
Lemma koch_under T n : forall a b, In (a, b) (segments (koch_moves T n) standard) -> under (3 ^ Z.of_nat n) a /\ under (3 ^ Z.of_nat n) b.
Proof.
  induction n as [|n IH]; intros a b Hin.
  - destruct Hin as [E|[]]. injection E as <- <-. unfold under. cbn. lia.
  - rewrite koch_segments_S in Hin. apply in_flat_map in Hin. destruct Hin as (s & Hs & Hin). apply in_map_iff in Hin. destruct Hin as ([a0 b0] & E & Hin). injection E as <- <-. apply IH in Hin. clear IH. rewrite pow_S. set (m := 3 ^ Z.of_nat n) in *. clearbody m.
    destruct a0 as [xa ya], b0 as [xb yb]. unfold under in *. cbn [fst snd] in *.
    destruct Hs as [<-|[<-|[<-|[<-|[<-|[]]]]]]; unfold place, standard; cbn [p_at p_to fst snd]; lia.
Qed.
Lemma koch_unit T n a b : In (a, b) (segments (koch_moves T n) standard) -> (fst b = fst a /\ (snd b = snd a + 1 \/ snd b = snd a - 1)) \/ (snd b = snd a /\ (fst b = fst a + 1 \/ fst b = fst a - 1)).
Proof.
  intros Hin. apply segments_unit in Hin. destruct Hin as (h & -> & Hh). unfold standard, right_of, left_of, add in *. cbn [p_to fst snd] in *.
  destruct Hh as [-> |[-> |[-> | -> ]]]; cbn [fst snd]; lia.
Qed.

Lemma NoDup_parts {X Y} (f : X -> list Y) (l : list X) : NoDup l -> (forall x, In x l -> NoDup (f x)) -> (forall x x' y, In x l -> In x' l -> In y (f x) -> In y (f x') -> x = x') -> NoDup (flat_map f l).
Proof.
  induction l as [|x l IH]; intros Hnd H1 H2; [constructor|]. cbn [flat_map]. inversion Hnd as [|? ? Hx Hl]. subst.
  assert (Happ : forall (a b : list Y), NoDup a -> NoDup b -> (forall y, In y a -> ~ In y b) -> NoDup (a ++ b)).
  { induction a as [|y a IHa]; intros b Ha Hb Hab; [assumption|]. inversion Ha. subst. cbn [app]. constructor; [intros Hi; apply in_app_or in Hi; destruct Hi as [Hi|Hi]; [contradiction|]; apply (Hab y); [left; reflexivity|assumption]|]. apply IHa; try assumption. intros z Hz. apply Hab. right. assumption. }
  apply Happ; [apply H1; left; reflexivity|apply IH; [assumption| |]|].
  - intros x' Hx'. apply H1. right. assumption.
  - intros x1 x2 y Hi1 Hi2. apply H2; right; assumption.
  - intros y Hy Hy'. apply in_flat_map in Hy'. destruct Hy' as (x' & Hx' & Hy'). apply Hx. rewrite (H2 x x' y); try assumption; [left; reflexivity|right; assumption].
Qed.

Lemma NoDup_map_in {X Y} (f : X -> Y) l : (forall x y, In x l -> In y l -> f x = f y -> x = y) -> NoDup l -> NoDup (map f l).
Proof.
  intros Hi. induction 1 as [|x l Hx Hl IH]; [constructor|]. cbn [map]. constructor.
  - intros Hin. apply in_map_iff in Hin. destruct Hin as (y & E & Hy). apply Hi in E; [subst; contradiction|right; assumption|left; reflexivity].
  - apply IH. intros y z Hy Hz. apply Hi; right; assumption.
Qed.

(** a segment, in either direction, lies in one copy only *)
Lemma koch_apart m (a b a' b' : point) s s' : 0 < m -> In s (koch_pens m) -> In s' (koch_pens m) -> under m a -> under m b -> under m a' -> under m b' ->
  (fst b = fst a /\ (snd b = snd a + 1 \/ snd b = snd a - 1)) \/ (snd b = snd a /\ (fst b = fst a + 1 \/ fst b = fst a - 1)) ->
  (place s a = place s' a' /\ place s b = place s' b') \/ (place s a = place s' b' /\ place s b = place s' a') -> s = s'.
Proof.
  intros Hm Hs Hs' Ha Hb Ha' Hb' Hu Heq. destruct a as [xa ya], b as [xb yb], a' as [xa' ya'], b' as [xb' yb']. unfold under in *. cbn [fst snd] in *.
  assert (Heq' : forall s0 s1 x y x' y', place s0 (x, y) = place s1 (x', y') -> fst (p_at s0) + x * fst (p_to s0) - y * snd (p_to s0) = fst (p_at s1) + x' * fst (p_to s1) - y' * snd (p_to s1) /\ snd (p_at s0) + x * snd (p_to s0) + y * fst (p_to s0) = snd (p_at s1) + x' * snd (p_to s1) + y' * fst (p_to s1)).
  { intros s0 s1 x y x' y' E. unfold place in E. cbn [fst snd] in E. injection E as E1 E2. auto. }
  assert (H4 : exists p q p' q', (p = xa' /\ q = ya' /\ p' = xb' /\ q' = yb' \/ p = xb' /\ q = yb' /\ p' = xa' /\ q' = ya') /\ place s (xa, ya) = place s' (p, q) /\ place s (xb, yb) = place s' (p', q')).
  { destruct Heq as [[E1 E2]|[E1 E2]]; [exists xa', ya', xb', yb'|exists xb', yb', xa', ya']; auto 10. }
  destruct H4 as (p & q & p' & q' & Hp & E1 & E2). apply Heq' in E1, E2. clear Heq Heq'.
  assert (Hp1 : 0 <= q /\ q <= p /\ q <= m - p) by lia. assert (Hp2 : 0 <= q' /\ q' <= p' /\ q' <= m - p') by lia. clear Hp Ha' Hb'.
  destruct Hs as [<-|[<-|[<-|[<-|[<-|[]]]]]], Hs' as [<-|[<-|[<-|[<-|[<-|[]]]]]]; unfold standard in *; cbn [p_at p_to fst snd] in *; try reflexivity; exfalso; lia.
Qed.
Lemma koch_pens_NoDup m : 0 < m -> NoDup (koch_pens m).
Proof. intros Hm. unfold koch_pens, standard. repeat constructor; cbn [In]; intros Hin; repeat (destruct Hin as [E|Hin]; [injection E; lia|]); exact Hin. Qed.
Lemma place_inj m s a b : In s (koch_pens m) -> place s a = place s b -> a = b.
Proof.
  intros Hs E. destruct a as [xa ya], b as [xb yb]. unfold place in E. cbn [fst snd] in E. injection E as E1 E2.
  destruct Hs as [<-|[<-|[<-|[<-|[<-|[]]]]]]; unfold standard in *; cbn [p_at p_to fst snd] in *; f_equal; lia.
Qed.
Lemma koch_once T n : NoDup (segments (koch_moves T n) standard) /\ forall a b, In (a, b) (segments (koch_moves T n) standard) -> ~ In (b, a) (segments (koch_moves T n) standard).
Proof.
  induction n as [|n (IH1 & IH2)].
  - split; [repeat constructor; intros []|]. intros a b [E|[]] [E'|[]]. injection E as <- <-. discriminate.
  - rewrite koch_segments_S. assert (Hm : 0 < 3 ^ Z.of_nat n) by (apply Z.pow_pos_nonneg; lia). pose proof (koch_under T n) as Hu. pose proof (koch_unit T n) as Hn. set (k := segments _ _) in *. set (m := 3 ^ Z.of_nat n) in *. clearbody m. split.
    + apply NoDup_parts; [apply koch_pens_NoDup; assumption| |].
      * intros s Hs. apply NoDup_map_in; [|assumption]. intros [a b] [a' b'] _ _ E. pose proof (f_equal fst E) as E1. pose proof (f_equal snd E) as E2. cbn [place2 fst snd] in E1, E2. f_equal; apply (place_inj m s); assumption.
      * intros s s' [x y] Hs Hs' Hi Hi'. apply in_map_iff in Hi, Hi'. destruct Hi as ([a b] & E & Hi), Hi' as ([a' b'] & E' & Hi'). pose proof (f_equal fst E) as E1. pose proof (f_equal snd E) as E2. pose proof (f_equal fst E') as E1'. pose proof (f_equal snd E') as E2'. cbn [place2 fst snd] in E1, E2, E1', E2'.
        apply (koch_apart m a b a' b'); try assumption; try apply (Hu a b Hi); try apply (Hu a' b' Hi'); [apply Hn; assumption|]. left. split; congruence.
    + intros x y Hi Hi'. apply in_flat_map in Hi, Hi'. destruct Hi as (s & Hs & Hi), Hi' as (s' & Hs' & Hi'). apply in_map_iff in Hi, Hi'. destruct Hi as ([a b] & E & Hi), Hi' as ([a' b'] & E' & Hi'). pose proof (f_equal fst E) as E1. pose proof (f_equal snd E) as E2. pose proof (f_equal fst E') as E1'. pose proof (f_equal snd E') as E2'. cbn [place2 fst snd] in E1, E2, E1', E2'.
      assert (Es : s = s') by (apply (koch_apart m a b a' b'); try assumption; try apply (Hu a b Hi); try apply (Hu a' b' Hi'); [apply Hn; assumption|]; right; split; congruence).
      subst s'. assert (a' = b) by (apply (place_inj m s); [assumption|congruence]). assert (b' = a) by (apply (place_inj m s); [assumption|congruence]). subst. apply (IH2 a b); assumption.
Qed.
Lemma koch_number T n : length (segments (koch_moves T n) standard) = (5 ^ n)%nat.
Proof. induction n as [|n IH]; [reflexivity|]. rewrite koch_segments_S. cbn [koch_pens flat_map]. rewrite !app_length, !map_length, IH. cbn [length Nat.pow]. lia. Qed.

Definition koch_cmd (c : ascii) : list cmd := map lattice_cmd (koch_move c).
Lemma flat_map_map {A B C} (f : A -> list B) (g : B -> C) l : flat_map (fun x => map g (f x)) l = map g (flat_map f l).
Proof. induction l as [|x l IH]; [reflexivity|]. cbn [flat_map]. rewrite map_app, IH. reflexivity. Qed.

(** The Koch script draws 5^(T-1) different unit segments of the square lattice, from the origin to 3^(T-1) on the x-axis, in the
    triangle over this base; its heading is again that of the start. *)
Theorem C114_koch : forall (V BA BN I : Type) (W : env Z V string BA BN) T fuel, (forall i, e_lab W i = Z.of_nat i) -> 1 <= T -> (Z.to_nat T < fuel)%nat ->
  exists t' segs, lsys_script (I := I) W fuel (koch T) = Ok (t', Ok tt) /\ t_trajectory t' = map real_line segs /\ Z.of_nat (length segs) = 5 ^ (T - 1) /\
    t_x t' = IZR (3 ^ (T - 1)) /\ t_y t' = 0%R /\ bearing (t_orientation t') = (1%R, 0%R) /\ t_stack t' = [] /\
    NoDup segs /\ (forall a b, In (a, b) segs -> ~ In (b, a) segs) /\
    forall a b, In (a, b) segs -> (Z.abs (fst a - fst b) + Z.abs (snd a - snd b) = 1) /\ under (3 ^ (T - 1)) a /\ under (3 ^ (T - 1)) b.
Proof.
  intros V BA BN I W T fuel Hlab HT Hf. set (n := (Z.to_nat T - 1)%nat). replace (T - 1) with (Z.of_nat n) by (unfold n; lia). destruct (koch_ok T) as [Hcf Hc].
  assert (Hb0 : bearing 90 = real_point (1, 0)) by (unfold bearing, real_point; cbn [fst snd]; replace (90 / 180 * PI)%R with (PI / 2)%R by field; rewrite sin_PI2, cos_PI2; reflexivity).
  destruct (lattice_run (koch_moves T n) (new_turtle 0 0 90) standard eq_refl Hb0) as (a & Hl & Ha). rewrite koch_end in Hl, Ha. cbn [p_at p_to] in Hl, Ha.
  eexists _, (segments (koch_moves T n) standard). split.
  { apply (demo_runs W Hlab (koch T) (letters "F+-") fuel koch_cmd n (map real_line (segments (koch_moves T n) standard)) (real_point (3 ^ Z.of_nat n, 0)) a Hcf ltac:(discriminate) Hc HT Hf eq_refl).
    - intros c Hin. right. vm_compute in Hin. destruct Hin as [<-|[<-|[<-|[]]]]; eexists; split; reflexivity.
    - apply (occurrences_ne "F"). change (l_axiom (koch T)) with "F". rewrite koch_count. apply Z.pow_pos_nonneg; lia.
    - unfold koch_cmd. rewrite flat_map_map. exact Hl. }
  cbn [t_trajectory t_x t_y t_orientation t_stack real_point fst snd]. split; [reflexivity|]. split; [rewrite koch_number; apply pow_nat|]. split; [reflexivity|]. split; [reflexivity|]. split; [exact Ha|]. split; [reflexivity|].
  destruct (koch_once T n) as [H1 H2]. split; [assumption|]. split; [assumption|]. intros x y Hi. split; [pose proof (koch_unit T n x y Hi); lia|]. apply (koch_under T n x y Hi).
Qed.
Print Assumptions C114_koch.

(** ** Sierpinski *)
Open Scope R_scope.
Lemma bearing_plus a b : bearing (a + b) = (fst (bearing a) * snd (bearing b) + snd (bearing a) * fst (bearing b), snd (bearing a) * snd (bearing b) - fst (bearing a) * fst (bearing b)).
Proof. unfold bearing. cbn [fst snd]. replace ((a + b) / 180 * PI) with (a / 180 * PI + b / 180 * PI) by (field; lra). rewrite sin_plus, cos_plus. reflexivity. Qed.
Lemma bearing_120 : bearing 120 = (sqrt 3 / 2, - (1 / 2)).
Proof. unfold bearing. replace (120 / 180 * PI) with (2 * (PI / 3)) by field. rewrite sin_2PI3, cos_2PI3. f_equal. lra. Qed.
Lemma bearing_m120 : bearing (-120) = (- (sqrt 3 / 2), - (1 / 2)).
Proof. replace (-120) with (- (120)) by lra. rewrite <- mirror_bearing, bearing_120. reflexivity. Qed.
Lemma sqrt3_sq : (sqrt 3 / 2) * (sqrt 3 / 2) = 3 / 4.
Proof. replace (sqrt 3 / 2 * (sqrt 3 / 2)) with (sqrt 3 * sqrt 3 / 4) by field. rewrite sqrt_sqrt by lra. reflexivity. Qed.
Lemma bearing_240 o : bearing (o + 120 + 120) = bearing (o + -120).
Proof.
  rewrite (bearing_plus (o + 120)), (bearing_plus o 120), (bearing_plus o (-120)), bearing_120, bearing_m120. destruct (bearing o) as [x y]. cbn [fst snd]. pose proof sqrt3_sq as Hs. set (r := sqrt 3 / 2) in *. clearbody r. f_equal.
  - transitivity (x / 4 - y * r - x * (r * r)); [field|]. rewrite Hs. field.
  - transitivity (y / 4 + x * r - y * (r * r)); [field|]. rewrite Hs. field.
Qed.
Lemma three_sum o : vadd (vadd (bearing o) (bearing (o + 120))) (bearing (o + -120)) = (0, 0).
Proof. rewrite (bearing_plus o 120), (bearing_plus o (-120)), bearing_120, bearing_m120. destruct (bearing o) as [x y]. unfold vadd. cbn [fst snd]. f_equal; lra. Qed.

Lemma third o : bearing (o + -120) = vmul (-1) (vadd (bearing o) (bearing (o + 120))).
Proof.
  pose proof (three_sum o) as H3. destruct (bearing o) as [x y], (bearing (o + 120)) as [x1 y1], (bearing (o + -120)) as [x2 y2]. unfold vadd, vmul in *. cbn [fst snd] in *. pose proof (f_equal fst H3) as E1. pose proof (f_equal snd H3) as E2. cbn [fst snd] in E1, E2. f_equal; lra.
Qed.
Ltac vectors := unfold vadd, vmul; cbn [fst snd]; apply (f_equal2 pair); ring.

Lemma pow_double n : INR (2 ^ S n) = INR (2 ^ n) + INR (2 ^ n).
Proof. rewrite <- plus_INR. f_equal. cbn [Nat.pow]. lia. Qed.

(** the lines drawn for the letter F after n rewritings *)
Fixpoint f_lines (n : nat) (q : R * R) (o : R) : list ((R * R) * (R * R)) :=
  match n with
  | O => [line q (vadd q (bearing o))]
  | S n =>
      let m := INR (2 ^ n) in
      let q1 := vadd q (vmul m (bearing o)) in
      let q2 := vadd q1 (vmul m (bearing (o + 120))) in
      let q3 := vadd q2 (vmul m (bearing o)) in
      f_lines n q o ++ straight (2 ^ n) q1 (bearing (o + 120)) ++ f_lines n q2 o ++ straight (2 ^ n) q3 (bearing (o + -120)) ++ f_lines n q1 o
  end.
Definition sier_cmd (c : ascii) : list cmd := if ascii_dec c "+" then [Rotate (-120)] else if ascii_dec c "-" then [Rotate 120] else [Forward 1].
Lemma g_word T n : generation (succ_word (sierpinski T)) n (letters "G") = repeat "G"%char (2 ^ n).
Proof. induction n as [|n IH]; [reflexivity|]. destruct (sierpinski_step T n) as (_ & E & _). rewrite E. change ["G"%char] with (letters "G"). rewrite IH, repeat_double. reflexivity. Qed.
Lemma g_figure T n : figure_of (flat_map sier_cmd (generation (succ_word (sierpinski T)) n (letters "G"))) (fun q o => straight (2 ^ n) q (bearing o)) (fun q o => vadd q (vmul (INR (2 ^ n)) (bearing o))) (fun _ o => o).
Proof. rewrite g_word, (flat_repeat sier_cmd "G"%char (Forward 1)) by reflexivity. apply fig_straight. Qed.
Lemma f_figure T n : figure_of (flat_map sier_cmd (generation (succ_word (sierpinski T)) n (letters "F"))) (f_lines n) (fun q o => vadd q (vmul (INR (2 ^ n)) (bearing o))) (fun _ o => o).
Proof.
  induction n as [|n IH].
  - change (flat_map sier_cmd (generation (succ_word (sierpinski T)) 0 (letters "F"))) with [Forward 1]. eapply fig_ext; [exact fig_forward|reflexivity| |reflexivity]. intros q o. cbn beta. cbn [Nat.pow INR]. rewrite vmul_1. reflexivity.
  - destruct (sierpinski_step T n) as (E & _). rewrite E. clear E. change ["F"%char] with (letters "F"). change ["G"%char] with (letters "G"). rewrite !flat_map_app. pose proof (g_figure T n) as Hg. set (F := flat_map sier_cmd (generation _ n (letters "F"))) in *. set (G := flat_map sier_cmd (generation _ n (letters "G"))) in *.
    change (flat_map sier_cmd (letters "+")) with [Rotate (-120)]. change (flat_map sier_cmd (letters "-")) with [Rotate 120].
    pose proof (fig_app _ _ _ _ _ _ _ _ IH (fig_app _ _ _ _ _ _ _ _ (fig_rotate 120) (fig_app _ _ _ _ _ _ _ _ Hg (fig_app _ _ _ _ _ _ _ _ (fig_rotate (-120)) (fig_app _ _ _ _ _ _ _ _ IH
      (fig_app _ _ _ _ _ _ _ _ (fig_rotate (-120)) (fig_app _ _ _ _ _ _ _ _ Hg (fig_app _ _ _ _ _ _ _ _ (fig_rotate 120) IH)))))))) as Hf.
    assert (Ep : forall q o, vadd (vadd (vadd (vadd q (vmul (INR (2 ^ n)) (bearing o))) (vmul (INR (2 ^ n)) (bearing (o + 120)))) (vmul (INR (2 ^ n)) (bearing o))) (vmul (INR (2 ^ n)) (bearing (o + -120))) = vadd q (vmul (INR (2 ^ n)) (bearing o))).
    { intros q o. rewrite third. clear. generalize (bearing o) (bearing (o + 120)). intros u v. vectors. }
    eapply fig_ext; [exact Hf| | |]; intros q o; cbn beta; cbn [f_lines app]; replace (o + 120 + -120) with o by ring.
    + replace (o + -120 + 120) with o by ring. rewrite Ep. reflexivity.
    + replace (o + -120 + 120) with o by ring. rewrite Ep, vadd_assoc, vadd_mul, <- pow_double. reflexivity.
    + ring.
Qed.

(** three sides of the unit triangle at [q] *)
Definition triangle (q : R * R) (o : R) : list ((R * R) * (R * R)) :=
  let q1 := vadd q (bearing o) in let q2 := vadd q1 (bearing (o + 120)) in [line q q1; line q1 q2; line q2 q].
Fixpoint gasket (n : nat) (q : R * R) (o : R) : list ((R * R) * (R * R)) :=
  match n with
  | O => triangle q o
  | S n => let u := vmul (INR (2 ^ n)) (bearing o) in gasket n q o ++ gasket n (vadd q u) o ++ gasket n (vadd (vadd q u) (vmul (INR (2 ^ n)) (bearing (o + 120)))) o
  end.
Definition side2 (n : nat) (q : R * R) (o : R) := straight (2 ^ n) (vadd q (vmul (INR (2 ^ n)) (bearing o))) (bearing (o + 120)).
Definition side3 (n : nat) (q : R * R) (o : R) := straight (2 ^ n) (vadd (vadd q (vmul (INR (2 ^ n)) (bearing o))) (vmul (INR (2 ^ n)) (bearing (o + 120)))) (bearing (o + -120)).

Lemma shuffle {X} (l0 l1 l2 l3 l4 l5 l6 l7 l8 : list X) :
  Permutation ((l0 ++ l1 ++ l2 ++ l3 ++ l4) ++ (l5 ++ l6) ++ l7 ++ l8) ((l0 ++ l1 ++ l8) ++ (l4 ++ l5 ++ l3) ++ (l2 ++ l6 ++ l7)).
Proof.
  set (f := fun k => nth k [l0; l1; l2; l3; l4; l5; l6; l7; l8] []).
  assert (Hp : Permutation [0; 1; 2; 3; 4; 5; 6; 7; 8]%nat [0; 1; 8; 4; 5; 3; 2; 6; 7]%nat).
  { apply NoDup_Permutation; [repeat constructor; cbn; lia|repeat constructor; cbn; lia|]. intros x. cbn. lia. }
  apply (Permutation_flat_map f) in Hp. cbn in Hp. rewrite !app_nil_r in Hp. rewrite <- !app_assoc. exact Hp.
Qed.
Lemma gasket_lines n : forall q o, Permutation (f_lines n q o ++ side2 n q o ++ side3 n q o) (gasket n q o).
Proof.
  induction n as [|n IH]; intros q o.
  - cbn [f_lines gasket]. unfold side2, side3, triangle. cbv zeta. change (2 ^ 0)%nat with 1%nat. rewrite !straight_1. cbn [INR app]. rewrite !vmul_1.
    assert (E : vadd (vadd (vadd q (bearing o)) (bearing (o + 120))) (bearing (o + -120)) = q).
    { rewrite third. clear. generalize (bearing o) (bearing (o + 120)). intros u v. destruct q as [x y]. vectors. }
    rewrite E. apply Permutation_refl.
  - cbn [gasket]. cbv zeta. set (u := vmul (INR (2 ^ n)) (bearing o)). set (v := vmul (INR (2 ^ n)) (bearing (o + 120))).
    rewrite <- (IH q o), <- (IH (vadd q u) o), <- (IH (vadd (vadd q u) v) o). cbn [f_lines]. cbv zeta. fold u. fold v.
    pose proof (pow_double n) as H2.
    assert (Ew : vmul (INR (2 ^ n)) (bearing (o + -120)) = vmul (-1) (vadd u v)).
    { unfold u, v. rewrite third. clear. generalize (bearing o) (bearing (o + 120)). intros u v. vectors. }
    assert (Eu : vmul (INR (2 ^ S n)) (bearing o) = vadd u u) by (unfold u; rewrite vadd_mul, H2; reflexivity). assert (Ev : vmul (INR (2 ^ S n)) (bearing (o + 120)) = vadd v v) by (unfold v; rewrite vadd_mul, H2; reflexivity).
    assert (E2 : side2 (S n) q o = side2 n (vadd q u) o ++ side2 n (vadd (vadd q u) v) o).
    { unfold side2. replace (2 ^ S n)%nat with (2 ^ n + 2 ^ n)%nat at 1 by (cbn [Nat.pow]; lia). rewrite straight_app. fold u. fold v. rewrite Eu. f_equal; f_equal; clearbody u v; vectors. }
    assert (E3 : side3 (S n) q o = side3 n (vadd (vadd q u) v) o ++ side3 n q o).
    { unfold side3. replace (2 ^ S n)%nat with (2 ^ n + 2 ^ n)%nat at 1 by (cbn [Nat.pow]; lia). rewrite straight_app. fold u. fold v. rewrite Eu, Ev, Ew. f_equal; f_equal; clearbody u v; vectors. }
    rewrite E2, E3. assert (E4 : side3 n (vadd q u) o = straight (2 ^ n) (vadd (vadd (vadd q u) v) u) (bearing (o + -120))).
    { unfold side3. fold u. fold v. f_equal. clearbody u v. vectors. }
    rewrite <- E4. change (straight (2 ^ n) (vadd q u) (bearing (o + 120))) with (side2 n q o). apply shuffle.
Qed.

(** ** positions of the small triangles: i steps along the side, j steps along the other, without a common binary digit *)
Definition cells (n : nat) : list (Z * Z) :=
  filter (fun c => Z.eqb (Z.land (fst c) (snd c)) 0) (flat_map (fun i => map (fun j => (i, j)) (zrange 0 (2 ^ Z.of_nat n - i))) (zrange 0 (2 ^ Z.of_nat n))).
Lemma in_cells n i j : In (i, j) (cells n) <-> (0 <= i /\ 0 <= j /\ i + j < 2 ^ Z.of_nat n /\ Z.land i j = 0)%Z.
Proof.
  unfold cells. rewrite filter_In. cbn [fst snd]. rewrite Z.eqb_eq. rewrite in_flat_map. split.
  - intros [(i' & Hi & Hj) E]. apply in_map_iff in Hj. destruct Hj as (j' & Ej & Hj). injection Ej as -> ->. apply in_zrange in Hi, Hj. lia.
  - intros (H1 & H2 & H3 & H4). split; [|assumption]. exists i. split; [apply in_zrange; lia|]. apply in_map_iff. exists j. split; [reflexivity|]. apply in_zrange. lia.
Qed.
Lemma cells_NoDup n : NoDup (cells n).
Proof.
  apply NoDup_filter, NoDup_parts; [apply NoDup_zrange| |].
  - intros i _. apply NoDup_map_in; [|apply NoDup_zrange]. intros a b _ _ E. congruence.
  - intros a b y _ _ Ha Hb. apply in_map_iff in Ha, Hb. destruct Ha as (j & <- & _), Hb as (j' & E & _). congruence.
Qed.
Lemma land_high n j : (0 <= j < 2 ^ Z.of_nat n)%Z -> Z.land (2 ^ Z.of_nat n) j = 0%Z.
Proof.
  intros Hj. apply Z.bits_inj'. intros k Hk. rewrite Z.land_spec, Z.bits_0, Z.pow2_bits_eqb by lia. destruct (Z.eqb_spec (Z.of_nat n) k) as [<-|]; [|reflexivity]. cbn [andb].
  destruct (Z.eq_dec j 0) as [-> |Hne]; [apply Z.bits_0|]. apply Z.bits_above_log2; [lia|]. apply Z.log2_lt_pow2; lia.
Qed.
Lemma land_shift n i j : (0 <= i < 2 ^ Z.of_nat n)%Z -> (0 <= j < 2 ^ Z.of_nat n)%Z -> Z.land (2 ^ Z.of_nat n + i) j = Z.land i j.
Proof. intros Hi Hj. rewrite Z.add_nocarry_lxor by (apply land_high; assumption). rewrite Z.lxor_lor by (apply land_high; assumption). rewrite Z.land_lor_distr_l, (land_high n j Hj). apply Z.lor_0_l. Qed.
Definition shift (a b : Z) (c : Z * Z) : Z * Z := (a + fst c, b + snd c)%Z.
Lemma cells_S n : Permutation (cells (S n)) (cells n ++ map (shift (2 ^ Z.of_nat n) 0) (cells n) ++ map (shift 0 (2 ^ Z.of_nat n)) (cells n)).
Proof.
  assert (Hm : (0 < 2 ^ Z.of_nat n)%Z) by (apply Z.pow_pos_nonneg; lia).
  apply NoDup_Permutation; [apply cells_NoDup| |].
  - change (cells n ++ map (shift (2 ^ Z.of_nat n) 0) (cells n) ++ map (shift 0 (2 ^ Z.of_nat n)) (cells n)) with (cells n ++ (map (shift (2 ^ Z.of_nat n) 0) (cells n) ++ map (shift 0 (2 ^ Z.of_nat n)) (cells n))).
    assert (E : cells n ++ map (shift (2 ^ Z.of_nat n) 0) (cells n) ++ map (shift 0 (2 ^ Z.of_nat n)) (cells n) = flat_map (fun s => map (shift (fst s) (snd s)) (cells n)) [(0, 0); (2 ^ Z.of_nat n, 0); (0, 2 ^ Z.of_nat n)]%Z).
    { cbn [flat_map fst snd]. rewrite app_nil_r. f_equal. rewrite <- (map_id (cells n)) at 1. apply map_ext. intros [i j]. reflexivity. }
    rewrite E. apply NoDup_parts.
    + repeat constructor; cbn; intuition (try congruence); match goal with H : (_, _) = (_, _) |- _ => injection H; lia end.
    + intros s _. apply NoDup_map_in; [|apply cells_NoDup]. intros [i j] [i' j'] _ _ Es. unfold shift in Es. cbn [fst snd] in Es. injection Es as E1 E2. f_equal; lia.
    + intros s s' [i j] Hs Hs' Hi Hi'. apply in_map_iff in Hi, Hi'. destruct Hi as ([a b] & E1 & H1), Hi' as ([a' b'] & E2 & H2). unfold shift in E1, E2. cbn [fst snd] in E1, E2. injection E1 as E1 E1'. injection E2 as E2 E2'. apply in_cells in H1, H2.
      destruct Hs as [<-|[<-|[<-|[]]]], Hs' as [<-|[<-|[<-|[]]]]; cbn [fst snd] in *; try reflexivity; lia.
  - intros [i j]. rewrite !in_app_iff, in_cells, pow_S.
    assert (Hx : In (i, j) (map (shift (2 ^ Z.of_nat n) 0) (cells n)) <-> In (i - 2 ^ Z.of_nat n, j)%Z (cells n)).
    { rewrite in_map_iff. split; [intros ([a b] & E & H1); unfold shift in E; cbn [fst snd] in E; injection E as <- <-; replace (2 ^ Z.of_nat n + a - 2 ^ Z.of_nat n)%Z with a by lia; assumption|]. intros H1. exists (i - 2 ^ Z.of_nat n, j)%Z. split; [unfold shift; cbn [fst snd]; f_equal; lia|assumption]. }
    assert (Hy : In (i, j) (map (shift 0 (2 ^ Z.of_nat n)) (cells n)) <-> In (i, j - 2 ^ Z.of_nat n)%Z (cells n)).
    { rewrite in_map_iff. split; [intros ([a b] & E & H1); unfold shift in E; cbn [fst snd] in E; injection E as <- <-; replace (2 ^ Z.of_nat n + b - 2 ^ Z.of_nat n)%Z with b by lia; assumption|]. intros H1. exists (i, j - 2 ^ Z.of_nat n)%Z. split; [unfold shift; cbn [fst snd]; f_equal; lia|assumption]. }
    rewrite Hx, Hy, !in_cells. clear Hx Hy. set (m := (2 ^ Z.of_nat n)%Z) in *. split.
    + intros (H1 & H2 & H3 & H4). destruct (Z.lt_ge_cases i m) as [Hi|Hi].
      * destruct (Z.lt_ge_cases j m) as [Hj|Hj].
        -- left. repeat split; try assumption. apply Z.add_nocarry_lt_pow2; assumption.
        -- right. right. repeat split; try lia. rewrite Z.land_comm, <- (land_shift n (j - m) i) by (fold m; lia). fold m. replace (m + (j - m))%Z with j by lia. rewrite Z.land_comm. assumption.
      * right. left. repeat split; try lia. rewrite <- (land_shift n (i - m) j) by (fold m; lia). fold m. replace (m + (i - m))%Z with i by lia. assumption.
    + intros [(H1 & H2 & H3 & H4)|[(H1 & H2 & H3 & H4)|(H1 & H2 & H3 & H4)]].
      * repeat split; lia.
      * repeat split; try lia. replace i with (m + (i - m))%Z by lia. unfold m in *. rewrite land_shift by lia. assumption.
      * repeat split; try lia. replace j with (m + (j - m))%Z by lia. rewrite Z.land_comm. unfold m in *. rewrite land_shift by lia. rewrite Z.land_comm. assumption.
Qed.

(** the corners in the plane: the first direction is upwards, the second 60 degrees to the right of it *)
Definition corner (i j : Z) : R * R := (IZR j * (sqrt 3 / 2), IZR i + IZR j / 2).
Definition edges3 (c : Z * Z) : list ((R * R) * (R * R)) :=
  let '(i, j) := c in [line (corner i j) (corner (i + 1) j); line (corner (i + 1) j) (corner i (j + 1)); line (corner i (j + 1)) (corner i j)].
Lemma bearing_0 : bearing 0 = (0, 1).
Proof. unfold bearing. replace (0 / 180 * PI) with 0 by field. rewrite sin_0, cos_0. reflexivity. Qed.
Lemma corner_up i j k : vadd (corner i j) (vmul (IZR k) (bearing 0)) = corner (i + k) j.
Proof. rewrite bearing_0. unfold vadd, vmul, corner. cbn [fst snd]. rewrite plus_IZR. f_equal; ring. Qed.
Lemma corner_down i j k : vadd (corner i j) (vmul (IZR k) (bearing (0 + 120))) = corner (i - k) (j + k).
Proof. replace (0 + 120) with 120 by ring. rewrite bearing_120. unfold vadd, vmul, corner. cbn [fst snd]. rewrite plus_IZR, minus_IZR. f_equal; field. Qed.
Lemma pow_INR n : INR (2 ^ n) = IZR (2 ^ Z.of_nat n).
Proof. rewrite INR_IZR_INZ, pow_nat. reflexivity. Qed.
Lemma gasket_cells n : forall i j, Permutation (gasket n (corner i j) 0) (flat_map (fun c => edges3 (shift i j c)) (cells n)).
Proof.
  induction n as [|n IH]; intros i j.
  - cbn [gasket]. unfold triangle. cbv zeta. change (cells 0) with [(0, 0)%Z]. cbn [flat_map shift edges3 fst snd]. rewrite !Z.add_0_r. cbn [app].
    pose proof (corner_up i j 1) as E1. pose proof (corner_down (i + 1) j 1) as E2. rewrite vmul_1 in E1, E2. rewrite E1, E2. replace (i + 1 - 1)%Z with i by lia. apply Permutation_refl.
  - cbn [gasket]. cbv zeta. rewrite pow_INR, corner_up, corner_down. rewrite !IH. rewrite (Permutation_flat_map _ (cells_S n)), !flat_map_app.
    assert (Hs : forall a b, flat_map (fun c => edges3 (shift i j c)) (map (shift a b) (cells n)) = flat_map (fun c => edges3 (shift (i + a) (j + b) c)) (cells n)).
    { intros a b. rewrite flat_map_concat_map, map_map, <- flat_map_concat_map. apply flat_map_ext. intros [x y]. unfold shift. cbn [fst snd]. f_equal. f_equal; lia. }
    rewrite !Hs. replace (i + 2 ^ Z.of_nat n - 2 ^ Z.of_nat n)%Z with (i + 0)%Z by lia. rewrite !Z.add_0_r. apply Permutation_refl.
Qed.

(** the edges are different, also when their direction is ignored *)
Lemma sqrt3_pos : 0 < sqrt 3 / 2.
Proof. assert (0 < sqrt 3) by (apply sqrt_lt_R0; lra). lra. Qed.
Lemma corner_inj i j i' j' : corner i j = corner i' j' -> i = i' /\ j = j'.
Proof.
  unfold corner. intros E. injection E as E1 E2. pose proof sqrt3_pos as Hp. assert (Ej : IZR j = IZR j') by nra. apply eq_IZR in Ej. subst j'. split; [|reflexivity]. apply eq_IZR. lra.
Qed.
Lemma line_inj p q p' q' : line p q = line p' q' -> p = p' /\ q = q'.
Proof. unfold line. destruct p, q, p', q'. cbn. intros E. injection E as -> -> -> ->. auto. Qed.
Lemma edges3_NoDup n : NoDup (flat_map edges3 (cells n)).
Proof.
  apply NoDup_parts; [apply cells_NoDup| |].
  - intros [i j] _. cbn [edges3]. repeat constructor; cbn [In]; intros Hi; repeat (destruct Hi as [E|Hi]; [apply line_inj in E; destruct E as [E1 E2]; apply corner_inj in E1, E2; lia|]); exact Hi.
  - intros [i j] [i' j'] l _ _ H1 H2. cbn [edges3 In] in H1, H2. destruct H1 as [<-|[<-|[<-|[]]]], H2 as [E|[E|[E|[]]]]; apply line_inj in E; destruct E as [E1 E2]; apply corner_inj in E1, E2; first [f_equal; lia|exfalso; lia].
Qed.
Definition backwards (l : (R * R) * (R * R)) : (R * R) * (R * R) := ((snd (fst l), fst (fst l)), (snd (snd l), fst (snd l))).
Lemma backwards_line p q : backwards (line p q) = line q p.
Proof. reflexivity. Qed.
Lemma edges3_one_way n l : In l (flat_map edges3 (cells n)) -> ~ In (backwards l) (flat_map edges3 (cells n)).
Proof.
  intros H1 H2. apply in_flat_map in H1, H2. destruct H1 as ([i j] & _ & H1), H2 as ([i' j'] & _ & H2). cbn [edges3 In] in H1, H2.
  destruct H1 as [<-|[<-|[<-|[]]]]; rewrite backwards_line in H2; destruct H2 as [E|[E|[E|[]]]]; apply line_inj in E; destruct E as [E1 E2]; apply corner_inj in E1, E2; lia.
Qed.
Lemma cells_number n : length (cells n) = (3 ^ n)%nat.
Proof. induction n as [|n IH]; [reflexivity|]. rewrite (Permutation_length (cells_S n)), !app_length, !map_length, IH. cbn [Nat.pow]. lia. Qed.

(** The Sierpinski script closes, and draws exactly once every side of the 3^(T-1) triangles whose position (i, j), i + j < 2^(T-1),
    has no binary digit one in common. *)
Theorem C114_sierpinski : forall (V BA BN I : Type) (W : env Z V string BA BN) T fuel, (forall i, e_lab W i = Z.of_nat i) -> (1 <= T)%Z -> (Z.to_nat T < fuel)%nat ->
  exists t' cs, lsys_script (I := I) W fuel (sierpinski T) = Ok (t', Ok tt) /\ pos t' = (0, 0) /\ t_stack t' = [] /\
    Permutation (t_trajectory t') (flat_map edges3 cs) /\ NoDup (t_trajectory t') /\ (forall l, In l (t_trajectory t') -> ~ In (backwards l) (t_trajectory t')) /\
    NoDup cs /\ (forall i j, In (i, j) cs <-> (0 <= i /\ 0 <= j /\ i + j < 2 ^ (T - 1) /\ Z.land i j = 0)%Z) /\ (Z.of_nat (length cs) = 3 ^ (T - 1))%Z.
Proof.
  intros V BA BN I W T fuel Hlab HT Hf. set (n := (Z.to_nat T - 1)%nat). replace (T - 1)%Z with (Z.of_nat n) by (unfold n; lia). destruct (sierpinski_ok T) as [Hcf Hc].
  set (u := vmul (INR (2 ^ n)) (bearing 0)). set (v := vmul (INR (2 ^ n)) (bearing (0 + 120))).
  set (ls := f_lines n (0, 0) 0 ++ side2 n (0, 0) 0 ++ side3 n (0, 0) 0).
  assert (Hfig : leads (flat_map sier_cmd (generation (succ_word (sierpinski T)) n (letters "F-G-G"))) (new_turtle 0 0 0) ls (0, 0) (0 + 120 + 120)).
  { destruct (sierpinski_step T n) as (_ & _ & E). rewrite E. clear E. change ["F"%char] with (letters "F"). change ["G"%char] with (letters "G"). rewrite !flat_map_app. change (flat_map sier_cmd (letters "-")) with [Rotate 120].
    pose proof (fig_app _ _ _ _ _ _ _ _ (f_figure T n) (fig_app _ _ _ _ _ _ _ _ (fig_rotate 120) (fig_app _ _ _ _ _ _ _ _ (g_figure T n) (fig_app _ _ _ _ _ _ _ _ (fig_rotate 120) (g_figure T n))))) as Hf2.
    specialize (Hf2 (new_turtle 0 0 0)). cbn beta in Hf2. change (pos (new_turtle 0 0 0)) with (0, 0) in Hf2. change (t_orientation (new_turtle 0 0 0)) with 0 in Hf2. cbn [app] in Hf2.
    rewrite bearing_240 in Hf2. unfold ls, side2, side3.
    replace (vadd (vadd (vadd (0, 0) (vmul (INR (2 ^ n)) (bearing 0))) (vmul (INR (2 ^ n)) (bearing (0 + 120)))) (vmul (INR (2 ^ n)) (bearing (0 + -120)))) with (0, 0) in Hf2; [exact Hf2|].
    rewrite third. clear. generalize (bearing 0) (bearing (0 + 120)). intros u v. vectors. }
  assert (Hp : Permutation ls (flat_map edges3 (cells n))).
  { unfold ls. rewrite gasket_lines. replace (0, 0) with (corner 0 0) by (unfold corner; f_equal; field). rewrite gasket_cells. rewrite (flat_map_ext (fun c => edges3 (shift 0 0 c)) edges3); [apply Permutation_refl|]. intros [i j]. reflexivity. }
  exists (mkTurtle 0 0 (0 + 120 + 120) ls []), (cells n). split.
  { apply (demo_runs W Hlab (sierpinski T) (letters "FG+-") fuel sier_cmd n ls (0, 0) (0 + 120 + 120) Hcf ltac:(discriminate) Hc HT Hf eq_refl).
    - intros c Hin. right. vm_compute in Hin. destruct Hin as [<-|[<-|[<-|[<-|[]]]]]; eexists; split; reflexivity.
    - apply (occurrences_ne "F"). destruct (C113_growth T n) as (_ & (E & _) & _). rewrite E. apply Z.pow_pos_nonneg; lia.
    - exact Hfig. }
  split; [reflexivity|]. split; [reflexivity|]. cbn [t_trajectory]. split; [assumption|].
  split; [apply (Permutation_NoDup (Permutation_sym Hp)), edges3_NoDup|]. split; [intros l H1 H2; apply (Permutation_in _ Hp) in H1, H2; exact (edges3_one_way n l H1 H2)|]. split; [apply cells_NoDup|]. split; [intros i j; apply in_cells|]. rewrite cells_number. apply pow_nat.
Qed.
Print Assumptions C114_sierpinski.

(** ** Examples: the curves after one and two rewritings, and the scripts with their own numbers of timesteps *)
Example C114_small : segments (koch_moves 2 1) standard = [((0, 0), (1, 0)); ((1, 0), (1, 1)); ((1, 1), (2, 1)); ((2, 1), (2, 0)); ((2, 0), (3, 0))]%Z /\
  cells 2 = [(0, 0); (0, 1); (0, 2); (0, 3); (1, 0); (1, 2); (2, 0); (2, 1); (3, 0)]%Z.
Proof. split; vm_compute; reflexivity. Qed.
Example C114_demos : exists t1 t2, lsys_script (I := unit) Ws 20 (koch koch_timesteps) = Ok (t1, Ok tt) /\ length (t_trajectory t1) = 125%nat /\ t_x t1 = 27 /\
  lsys_script (I := unit) Ws 20 (sierpinski sierpinski_timesteps) = Ok (t2, Ok tt) /\ length (t_trajectory t2) = 729%nat.
Proof.
  destruct (C114_koch unit unit unit unit Ws koch_timesteps 20 (fun i => eq_refl) ltac:(unfold koch_timesteps; lia) ltac:(unfold koch_timesteps; lia)) as (t1 & segs & E1 & H1 & H2 & H3 & _).
  destruct (C114_sierpinski unit unit unit unit Ws sierpinski_timesteps 20 (fun i => eq_refl) ltac:(unfold sierpinski_timesteps; lia) ltac:(unfold sierpinski_timesteps; lia)) as (t2 & cs & E2 & _ & _ & H4 & _ & _ & _ & _ & H5).
  exists t1, t2. split; [exact E1|]. split; [rewrite H1, map_length; apply Nat2Z.inj; rewrite H2; reflexivity|]. split; [rewrite H3; reflexivity|]. split; [exact E2|].
  rewrite (Permutation_length H4). change (3 ^ (sierpinski_timesteps - 1))%Z with 243%Z in H5. assert (Hl : forall l, length (flat_map edges3 l) = (3 * length l)%nat) by (induction l as [|[i j] l IH]; [reflexivity|]; cbn [flat_map edges3 app length]; lia). rewrite Hl. lia.
Qed.
