(** * C62, C71: turtle graphics *)
From Coq Require Import Reals Lra Lia.
From Verif Require Import Py PyFacts Turtle.
Open Scope R_scope.

(** ** specification *)
Definition dist (p q : R * R) : R := sqrt ((fst q - fst p) ^ 2 + (snd q - snd p) ^ 2).
(** the unit vector at a compass bearing in degrees *)
Definition bearing (a : R) : R * R := (sin (a / 180 * PI), cos (a / 180 * PI)).
Definition line (p q : R * R) : (R * R) * (R * R) := ((fst p, fst q), (snd p, snd q)).
Definition is_forward (c : cmd) : bool := match c with Forward _ => true | _ => false end.
Definition is_push (c : cmd) : bool := match c with Push => true | _ => false end.
Definition is_pop (c : cmd) : bool := match c with Pop => true | _ => false end.
Definition number (p : cmd -> bool) (cs : list cmd) : nat := length (filter p cs).
(** every pop matches an earlier push and the other way round *)
Inductive balanced : list cmd -> Prop :=
| bal_nil : balanced []
| bal_forward d cs : balanced cs -> balanced (Forward d :: cs)
| bal_rotate a cs : balanced cs -> balanced (Rotate a :: cs)
| bal_nest cs cs' : balanced cs -> balanced cs' -> balanced (Push :: cs ++ Pop :: cs').

(** ** C62 *)
Theorem C62_forward : forall d t, let t' := forward d t in
  dist (pos t) (pos t') = Rabs d /\ fst (pos t') - fst (pos t) = d * fst (bearing (t_orientation t)) /\ snd (pos t') - snd (pos t) = d * snd (bearing (t_orientation t)) /\
  t_trajectory t' = t_trajectory t ++ [line (pos t) (pos t')] /\ t_orientation t' = t_orientation t /\ t_stack t' = t_stack t.
Proof.
  intros d [x y o tr st] t'. subst t'. unfold forward, pos, dist, bearing, line, radians. cbn [t_x t_y t_orientation t_trajectory t_stack fst snd]. replace (o / 180 * PI) with (o * (PI / 180)) by field. set (a := o * (PI / 180)).
  split; [|repeat split; lra]. replace ((sin a * d + x - x) ^ 2 + (cos a * d + y - y) ^ 2) with (d ^ 2 * (Rsqr (sin a) + Rsqr (cos a))) by (unfold Rsqr; ring). rewrite sin2_cos2, Rmult_1_r. replace (d ^ 2) with (Rsqr d) by (unfold Rsqr; ring). apply sqrt_Rsqr_abs.
Qed.

Theorem C62_turn_push : forall a t,
  pos (rotate a t) = pos t /\ t_orientation (rotate a t) = t_orientation t + a /\ t_trajectory (rotate a t) = t_trajectory t /\ t_stack (rotate a t) = t_stack t /\
  pos (push t) = pos t /\ t_orientation (push t) = t_orientation t /\ t_trajectory (push t) = t_trajectory t /\
  turtle_abs t = dist (0, 0) (pos t).
Proof. intros a [x y o tr st]. repeat split; try reflexivity. unfold turtle_abs, dist, pos. cbn [t_x t_y fst snd]. f_equal. ring. Qed.

Lemma run_app a b t : run (a ++ b) t = (t' <- run a t ;; run b t').
Proof. apply rfold_app. Qed.

Lemma balanced_run cs : balanced cs -> forall t, exists t', run cs t = Ok t' /\ t_stack t' = t_stack t.
Proof.
  induction 1 as [|d cs _ IH|a cs _ IH|cs cs' _ IH _ IH']; intros t.
  - exists t. split; reflexivity.
  - destruct (IH (forward d t)) as (t' & E & Hs). exists t'. split; [exact E|rewrite Hs; reflexivity].
  - destruct (IH (rotate a t)) as (t' & E & Hs). exists t'. split; [exact E|rewrite Hs; reflexivity].
  - destruct (IH (push t)) as (t1 & E1 & Hs1). cbn [push t_stack] in Hs1. destruct (IH' (mkTurtle (t_x t) (t_y t) (t_orientation t) (t_trajectory t1) (t_stack t))) as (t2 & E2 & Hs2). exists t2. split; [|exact Hs2].
    change (run (Push :: cs ++ Pop :: cs') t) with (run (cs ++ Pop :: cs') (push t)). rewrite run_app, E1. cbn [rbind]. unfold run. cbn [rfold step]. unfold pop. rewrite Hs1. cbn [rbind]. exact E2.
Qed.

(** push, anything balanced, pop: back where it was; the drawing has only grown *)
Theorem C62_push_pop : forall cs t, balanced cs -> exists t' ls, run (Push :: cs ++ [Pop]) t = Ok t' /\ pos t' = pos t /\ t_orientation t' = t_orientation t /\ t_stack t' = t_stack t /\
  t_trajectory t' = t_trajectory t ++ ls /\ length ls = number is_forward cs.
Proof.
  assert (Hdraw : forall cs t t', run cs t = Ok t' -> exists ls, t_trajectory t' = t_trajectory t ++ ls /\ length ls = number is_forward cs).
  { induction cs as [|c cs IH]; intros t t' E; [injection E as <-; exists []; rewrite app_nil_r; split; reflexivity|]. unfold run in E. cbn [rfold] in E. destruct (step t c) as [t1|] eqn:E1; [|discriminate]. cbn [rbind] in E. destruct (IH t1 t' E) as (ls & -> & Hl). destruct c; cbn [step] in E1.
    - injection E1 as <-. eexists. cbn [forward t_trajectory]. rewrite <- app_assoc. split; [reflexivity|]. cbn [app length]. rewrite Hl. reflexivity.
    - injection E1 as <-. exists ls. split; [reflexivity|exact Hl].
    - injection E1 as <-. exists ls. split; [reflexivity|exact Hl].
    - unfold pop in E1. destruct (t_stack t) as [|[[x y] o] rest]; [discriminate|]. injection E1 as <-. exists ls. split; [reflexivity|exact Hl]. }
  intros cs t Hb. destruct (balanced_run cs Hb (push t)) as (t1 & E1 & Hs). cbn [push t_stack] in Hs. destruct (Hdraw _ _ _ E1) as (ls & Hl & Hn).
  exists (mkTurtle (t_x t) (t_y t) (t_orientation t) (t_trajectory t1) (t_stack t)), ls. split; [|repeat split; assumption].
  change (run (Push :: cs ++ [Pop]) t) with (run (cs ++ [Pop]) (push t)). rewrite run_app, E1. cbn [rbind]. unfold run. cbn [rfold step]. unfold pop. rewrite Hs. reflexivity.
Qed.

(** the lines drawn so far are never lost, and the next ones are those between the positions before and after each forward *)
Theorem C62_lines : forall cs t t', run cs t = Ok t' -> exists ls, t_trajectory t' = t_trajectory t ++ ls /\ length ls = number is_forward cs /\
  forall a d b, cs = a ++ Forward d :: b -> exists ta, run a t = Ok ta /\ nth_error ls (number is_forward a) = Some (line (pos ta) (pos (forward d ta))).
Proof.
  induction cs as [|c cs IH]; intros t t' E.
  - injection E as <-. exists []. rewrite app_nil_r. split; [reflexivity|]. split; [reflexivity|]. intros [|x a] d b Hb; discriminate.
  - unfold run in E. cbn [rfold] in E. destruct (step t c) as [t1|] eqn:E1; [|discriminate]. cbn [rbind] in E. destruct (IH t1 t' E) as (ls & El & Hn & Hls).
    exists ((if is_forward c then [line (pos t) (pos t1)] else []) ++ ls). assert (Et : t_trajectory t1 = t_trajectory t ++ (if is_forward c then [line (pos t) (pos t1)] else [])).
    { destruct c; cbn [step is_forward] in *; try (injection E1 as <-; try reflexivity; cbn [rotate push t_trajectory]; rewrite app_nil_r; reflexivity).
      unfold pop in E1. destruct (t_stack t) as [|[[x y] o] rest]; [discriminate|]. injection E1 as <-. cbn [t_trajectory]. rewrite app_nil_r. reflexivity. }
    split; [rewrite El, Et, app_assoc; reflexivity|]. split; [rewrite app_length, Hn; unfold number; cbn [filter]; destruct (is_forward c); reflexivity|].
    intros a d b Hb. destruct a as [|c' a]; cbn [app] in Hb.
    + assert (c = Forward d) by congruence. subst c. exists t. split; [reflexivity|]. cbn [step] in E1. injection E1 as <-. reflexivity.
    + assert (c' = c) by congruence. subst c'. assert (Hb' : cs = a ++ Forward d :: b) by congruence. destruct (Hls a d b Hb') as (ta & Ea & Hnth). exists ta. split; [unfold run; cbn [rfold]; rewrite E1; exact Ea|]. unfold number. cbn [filter]. destruct (is_forward c); exact Hnth.
Qed.

(** the only failure is a pop with nothing pushed *)
Theorem C62_raises : forall cs t, (forall e, run cs t = Err e -> e = IndexError) /\
  ((exists e, run cs t = Err e) <-> exists a b, cs = a ++ b /\ (number is_push a + length (t_stack t) < number is_pop a)%nat).
Proof.
  induction cs as [|c cs IH]; intros t.
  - split; [intros e E; discriminate|]. split; [intros [e E]; discriminate|]. intros (a & b & Hab & Hlt). symmetry in Hab. apply app_eq_nil in Hab. destruct Hab as [-> ->]. cbn in Hlt. lia.
  - unfold run. cbn [rfold]. destruct (step t c) as [t1|e1] eqn:E1; cbn [rbind].
    + destruct (IH t1) as [I1 I2]. split; [exact I1|]. fold (run cs t1). rewrite I2. assert (Hlen : (length (t_stack t1) + (if is_pop c then 1 else 0) = length (t_stack t) + (if is_push c then 1 else 0))%nat).
      { destruct c; cbn [step is_pop is_push] in *; try (injection E1 as <-; cbn [forward rotate push t_stack length]; lia). unfold pop in E1. destruct (t_stack t) as [|[[x y] o] rest]; [discriminate|]. injection E1 as <-. cbn [t_stack length]. lia. }
      split.
      * intros (a & b & -> & Hlt). exists (c :: a), b. split; [reflexivity|]. unfold number in *. cbn [filter]. destruct (is_push c), (is_pop c); cbn [length]; lia.
      * intros (a & b & Hab & Hlt). destruct a as [|c' a]; [cbn in Hlt; lia|]. cbn [app] in Hab. assert (c' = c) by congruence. subst c'. exists a, b. split; [congruence|]. unfold number in *. cbn [filter] in Hlt. destruct (is_push c), (is_pop c); cbn [length] in Hlt; lia.
    + destruct c; cbn [step] in E1; try discriminate. unfold pop in E1. destruct (t_stack t) as [|[[x y] o] rest] eqn:Es; [|discriminate]. injection E1 as <-. split; [intros e E; congruence|]. split; [|intros _; eexists; reflexivity]. intros _. exists [Pop], cs. split; [reflexivity|]. cbn. lia.
Qed.

(** ** turning all the way round *)
Lemma sin_turns x k : sin (x + 2 * IZR k * PI) = sin x.
Proof.
  destruct (Z_le_gt_dec 0 k) as [Hk|Hk].
  - rewrite <- (Z2Nat.id k Hk), <- INR_IZR_INZ. apply sin_period.
  - rewrite <- (sin_period (x + 2 * IZR k * PI) (Z.to_nat (- k))). f_equal. rewrite INR_IZR_INZ, Z2Nat.id by lia. rewrite opp_IZR. ring.
Qed.
Lemma cos_turns x k : cos (x + 2 * IZR k * PI) = cos x.
Proof.
  destruct (Z_le_gt_dec 0 k) as [Hk|Hk].
  - rewrite <- (Z2Nat.id k Hk), <- INR_IZR_INZ. apply cos_period.
  - rewrite <- (cos_period (x + 2 * IZR k * PI) (Z.to_nat (- k))). f_equal. rewrite INR_IZR_INZ, Z2Nat.id by lia. rewrite opp_IZR. ring.
Qed.

Definition same_bearing (a b : R) : Prop := exists k, b = a + 360 * IZR k.
Definition alike (t t' : turtle) : Prop := t_x t = t_x t' /\ t_y t = t_y t' /\ t_trajectory t = t_trajectory t' /\ same_bearing (t_orientation t) (t_orientation t') /\
  Forall2 (fun p q => fst p = fst q /\ same_bearing (snd p) (snd q)) (t_stack t) (t_stack t').

Lemma alike_run cs : forall t t', alike t t' -> match run cs t, run cs t' with Ok u, Ok u' => alike u u' | Err e, Err e' => e = e' | _, _ => False end.
Proof.
  induction cs as [|c cs IH]; intros t t' Ha; [exact Ha|]. unfold run. cbn [rfold].
  assert (Hs : match step t c, step t' c with Ok u, Ok u' => alike u u' | Err e, Err e' => e = e' | _, _ => False end).
  { destruct t as [x y o tr st], t' as [x' y' o' tr' st']. destruct Ha as (H1 & H2 & H3 & [k H4] & H5). cbn [t_x t_y t_orientation t_trajectory t_stack] in *. subst x' y' tr' o'. destruct c; cbn [step].
    - assert (Ea : radians (o + 360 * IZR k) = radians o + 2 * IZR k * PI) by (unfold radians; field). unfold forward, alike. cbn [t_x t_y t_orientation t_trajectory t_stack fst snd]. rewrite Ea, sin_turns, cos_turns. repeat split; try reflexivity; [exists k; reflexivity|assumption].
    - unfold rotate, alike. cbn [t_x t_y t_orientation t_trajectory t_stack]. repeat split; try reflexivity; [exists k; lra|assumption].
    - unfold push, alike. cbn [t_x t_y t_orientation t_trajectory t_stack]. repeat split; try reflexivity; [exists k; reflexivity|]. constructor; [split; [reflexivity|exists k; reflexivity]|assumption].
    - unfold pop. cbn [t_stack]. destruct H5 as [|[[px py] po] [[qx qy] qo] st st' [E1 E2] H5]; [reflexivity|]. cbn [fst snd] in *. injection E1 as -> ->. unfold alike. cbn [t_x t_y t_orientation t_trajectory t_stack]. repeat split; assumption || reflexivity. }
  destruct (step t c) as [u|e], (step t' c) as [u'|e']; try contradiction; cbn [rbind]; [apply (IH u u' Hs)|exact Hs].
Qed.

Theorem C62_full_turn : forall k cs t, match run cs t, run (Rotate (360 * IZR k) :: cs) t with
  | Ok u, Ok u' => pos u = pos u' /\ t_trajectory u = t_trajectory u'
  | Err e, Err e' => e = e'
  | _, _ => False
  end.
Proof.
  intros k cs t. pose proof (alike_run cs t (rotate (360 * IZR k) t)) as Ha. change (run (Rotate (360 * IZR k) :: cs) t) with (run cs (rotate (360 * IZR k) t)).
  assert (H0 : alike t (rotate (360 * IZR k) t)). { destruct t as [x y o tr st]. unfold alike, rotate. cbn [t_x t_y t_orientation t_trajectory t_stack]. repeat split; try reflexivity; [exists k; reflexivity|]. clear Ha. induction st; [constructor|constructor; [split; [reflexivity|exists 0%Z; lra]|assumption]]. }
  specialize (Ha H0). destruct (run cs t) as [u|e], (run cs (rotate _ t)) as [u'|e']; try contradiction; [|assumption]. destruct Ha as (H1 & H2 & H3 & _). unfold pos. rewrite H1, H2. split; [reflexivity|assumption].
Qed.

(** ** C71: rigid motions and polygons *)
(** turn by [a] degrees to the right about the origin, then shift by [(dx, dy)] *)
Definition rigid (a dx dy : R) (p : R * R) : R * R :=
  let (s, c) := bearing a in (c * fst p + s * snd p + dx, c * snd p - s * fst p + dy).
Definition moved (a dx dy : R) (t : turtle) : turtle :=
  let f := rigid a dx dy in
  mkTurtle (fst (f (pos t))) (snd (f (pos t))) (t_orientation t + a) (map (fun l => line (f (fst (fst l), fst (snd l))) (f (snd (fst l), snd (snd l)))) (t_trajectory t))
    (map (fun q => (fst (f (fst q)), snd (f (fst q)), snd q + a)) (t_stack t)).

(** a turtle that starts elsewhere, facing elsewhere, draws the same figure turned and shifted *)
Theorem C71_rigid : forall a dx dy cs t, run cs (moved a dx dy t) = match run cs t with Ok u => Ok (moved a dx dy u) | Err e => Err e end.
Proof.
  intros a dx dy. induction cs as [|c cs IH]; intros t; [reflexivity|]. unfold run. cbn [rfold].
  assert (Hs : step (moved a dx dy t) c = match step t c with Ok u => Ok (moved a dx dy u) | Err e => Err e end).
  { destruct t as [x y o tr st]. destruct c as [d|b| |]; cbn [step].
    - f_equal. unfold forward, moved, pos, rigid, bearing, line. cbn [t_x t_y t_orientation t_trajectory t_stack fst snd]. rewrite map_app. cbn [map fst snd].
      assert (Ea : radians (o + a) = radians o + a / 180 * PI) by (unfold radians; field). rewrite Ea, sin_plus, cos_plus.
      set (s := sin (a / 180 * PI)). set (k := cos (a / 180 * PI)). set (s' := sin (radians o)). set (k' := cos (radians o)).
      replace (k * (s' * d + x) + s * (k' * d + y) + dx) with ((s' * k + k' * s) * d + (k * x + s * y + dx)) by ring. replace (k * (k' * d + y) - s * (s' * d + x) + dy) with ((k' * k - s' * s) * d + (k * y - s * x + dy)) by ring. reflexivity.
    - f_equal. unfold rotate, moved, pos. cbn [t_x t_y t_orientation t_trajectory t_stack]. f_equal. ring.
    - reflexivity.
    - unfold pop, moved, pos. cbn [t_stack t_x t_y t_orientation t_trajectory]. destruct st as [|[[x1 y1] o1] rest]; reflexivity. }
  rewrite Hs. destruct (step t c) as [u|e]; [|reflexivity]. cbn [rbind]. apply IH.
Qed.

Definition figure (d a : R) (n : nat) : list cmd := concat (repeat [Forward d; Rotate a] n).

Lemma figure_S d a n : figure d a (S n) = figure d a n ++ [Forward d; Rotate a].
Proof.
  unfold figure. assert (E : forall n, repeat [Forward d; Rotate a] (S n) = repeat [Forward d; Rotate a] n ++ [[Forward d; Rotate a]]) by (clear n; induction n as [|n IH]; [reflexivity|]; cbn [repeat app] in *; rewrite <- IH; reflexivity).
  rewrite E, concat_app. reflexivity.
Qed.

Lemma figure_run d a t n : let h := radians a in let o := radians (t_orientation t) in exists t', run (figure d a n) t = Ok t' /\ t_orientation t' = t_orientation t + INR n * a /\
  2 * sin (h / 2) * (t_x t' - t_x t) = d * (cos (o - h / 2) - cos (o + INR n * h - h / 2)) /\ 2 * sin (h / 2) * (t_y t' - t_y t) = d * (sin (o + INR n * h - h / 2) - sin (o - h / 2)) /\
  exists ls, t_trajectory t' = t_trajectory t ++ ls /\ length ls = n.
Proof.
  intros h o. induction n as [|n IH].
  - exists t. split; [reflexivity|]. cbn [INR]. split; [lra|]. replace (o + 0 * h - h / 2) with (o - h / 2) by lra. split; [lra|]. split; [lra|]. exists []. rewrite app_nil_r. split; reflexivity.
  - destruct IH as (t1 & E & Ho & Hx & Hy & ls & Hl & Hn). rewrite figure_S, run_app, E. cbn [rbind]. exists (rotate a (forward d t1)). split; [reflexivity|]. rewrite S_INR. cbn [rotate forward t_x t_y t_orientation t_trajectory].
    split; [rewrite Ho; ring|]. assert (Ea : radians (t_orientation t1) = (o + INR n * h - h / 2) + h / 2) by (rewrite Ho; unfold o, h, radians; lra). rewrite Ea. set (b := o + INR n * h - h / 2) in *.
    replace (o + (INR n + 1) * h - h / 2) with (b + h / 2 + h / 2) by (unfold b; lra). split; [|split].
    + replace (2 * sin (h / 2) * (sin (b + h / 2) * d + t_x t1 - t_x t)) with (d * (2 * sin (h / 2) * sin (b + h / 2)) + 2 * sin (h / 2) * (t_x t1 - t_x t)) by ring. rewrite Hx. rewrite (cos_plus (b + h / 2)). replace (cos b) with (cos (b + h / 2 - h / 2)) by (f_equal; lra). rewrite (cos_minus (b + h / 2)). ring.
    + replace (2 * sin (h / 2) * (cos (b + h / 2) * d + t_y t1 - t_y t)) with (d * (2 * sin (h / 2) * cos (b + h / 2)) + 2 * sin (h / 2) * (t_y t1 - t_y t)) by ring. rewrite Hy. rewrite (sin_plus (b + h / 2)). replace (sin b) with (sin (b + h / 2 - h / 2)) by (f_equal; lra). rewrite (sin_minus (b + h / 2)). ring.
    + eexists. rewrite Hl, <- app_assoc. split; [reflexivity|]. rewrite app_length, Hn. cbn [length]. lia.
Qed.

(** n sides, k turns in all: the figure closes, unless k is a multiple of n *)
Theorem C71_polygon : forall (n : nat) (k : Z) d t, (0 < n)%nat -> ~ (Z.of_nat n | k)%Z ->
  exists t' ls, run (figure d (360 * IZR k / INR n) n) t = Ok t' /\ pos t' = pos t /\ t_orientation t' = t_orientation t + 360 * IZR k /\ t_trajectory t' = t_trajectory t ++ ls /\ length ls = n.
Proof.
  intros n k d t Hn Hk. assert (Hp : 0 < INR n) by (apply lt_0_INR; assumption). destruct (figure_run d (360 * IZR k / INR n) t n) as (t' & E & Ho & Hx & Hy & ls & Hl & Hln). cbn zeta in *. exists t', ls. split; [exact E|].
  assert (Eh : radians (360 * IZR k / INR n) = 2 * (IZR k * PI / INR n)) by (unfold radians; field; lra). rewrite Eh in Hx, Hy. set (q := IZR k * PI / INR n) in *. replace (2 * q / 2) with q in Hx, Hy by lra.
  assert (Eq : INR n * (2 * q) = 2 * IZR k * PI) by (unfold q; field; lra). set (o := radians (t_orientation t)) in *. replace (o + INR n * (2 * q) - q) with (o - q + 2 * IZR k * PI) in Hx, Hy by lra. rewrite cos_turns in Hx. rewrite sin_turns in Hy.
  assert (Hs : sin q <> 0).
  { intros Es. apply sin_eq_0_0 in Es. destruct Es as [j Ej]. apply Hk. exists j. apply eq_IZR. rewrite mult_IZR, <- INR_IZR_INZ. pose proof PI_RGT_0. unfold q in Ej. apply (Rmult_eq_reg_r PI); [|lra]. apply (Rmult_eq_compat_r (INR n)) in Ej. unfold Rdiv in Ej. rewrite Rmult_assoc, Rinv_l, Rmult_1_r in Ej by lra. lra. }
  split; [|split; [rewrite Ho; field; lra|split; assumption]]. unfold pos. f_equal.
  - assert (Hz : 2 * sin q * (t_x t' - t_x t) = 0) by lra. apply Rmult_integral in Hz. destruct Hz; lra.
  - assert (Hz : 2 * sin q * (t_y t' - t_y t) = 0) by lra. apply Rmult_integral in Hz. destruct Hz; lra.
Qed.

(** otherwise the turtle walks straight on *)
Theorem C71_straight : forall (n : nat) (m : Z) d t, exists t', run (figure d (360 * IZR m) n) t = Ok t' /\
  fst (pos t') - fst (pos t) = INR n * d * fst (bearing (t_orientation t)) /\ snd (pos t') - snd (pos t) = INR n * d * snd (bearing (t_orientation t)) /\ (pos t' = pos t <-> n = 0%nat \/ d = 0).
Proof.
  intros n m d t. assert (H : exists t', run (figure d (360 * IZR m) n) t = Ok t' /\ t_orientation t' = t_orientation t + 360 * IZR (Z.of_nat n * m) /\ t_x t' - t_x t = INR n * d * sin (radians (t_orientation t)) /\ t_y t' - t_y t = INR n * d * cos (radians (t_orientation t))).
  { induction n as [|n IH]; [exists t; cbn; repeat split; lra|]. destruct IH as (t1 & E & Ho & Hx & Hy). rewrite figure_S, run_app, E. cbn [rbind]. exists (rotate (360 * IZR m) (forward d t1)). split; [reflexivity|]. cbn [rotate forward t_x t_y t_orientation].
    assert (Er : radians (t_orientation t1) = radians (t_orientation t) + 2 * IZR (Z.of_nat n * m) * PI) by (rewrite Ho; unfold radians; field). rewrite Er, sin_turns, cos_turns, S_INR. split; [rewrite Ho, !mult_IZR, Nat2Z.inj_succ, succ_IZR; lra|]. split; lra. }
  destruct H as (t' & E & _ & Hx & Hy). exists t'. split; [exact E|]. unfold pos, bearing. cbn [fst snd]. replace (t_orientation t / 180 * PI) with (radians (t_orientation t)) by (unfold radians; field). split; [exact Hx|]. split; [exact Hy|].
  set (s := sin (radians (t_orientation t))) in *. set (c := cos (radians (t_orientation t))) in *. pose proof (sin2_cos2 (radians (t_orientation t))) as Hsc. fold s c in Hsc. unfold Rsqr in Hsc. split.
  - intros Hp. injection Hp as Hp1 Hp2. assert (Hz : INR n * d * (s * s + c * c) = 0) by (replace (INR n * d * (s * s + c * c)) with (INR n * d * s * s + INR n * d * c * c) by ring; rewrite <- Hx, <- Hy, Hp1, Hp2; ring). rewrite Hsc, Rmult_1_r in Hz. apply Rmult_integral in Hz. destruct Hz as [Hz|Hz]; [left; apply INR_eq; exact Hz|right; exact Hz].
  - intros Hz. assert (H0 : INR n * d = 0) by (destruct Hz as [-> | ->]; cbn [INR]; ring). rewrite H0 in Hx, Hy. f_equal; lra.
Qed.

(** ** Examples *)
Example C62_nonvacuous : balanced [Forward 1; Push; Rotate 90; Forward 2; Pop; Push; Forward 1; Pop] /\
  (exists t', run [Forward 1; Push; Rotate 90; Forward 2] (new_turtle 0 0 0) = Ok t' /\ pos t' = (2, 1) /\ t_trajectory t' = [((0, 0), (0, 1)); ((0, 2), (1, 1))]) /\
  run [Push; Pop; Pop] (new_turtle 0 0 0) = Err IndexError /\ ~ (Z.of_nat 5 | 2)%Z.
Proof.
  split; [constructor; apply (bal_nest [Rotate 90; Forward 2] [Push; Forward 1; Pop]); [repeat constructor|apply (bal_nest [Forward 1] []); repeat constructor]|]. split.
  - eexists. split; [reflexivity|]. unfold new_turtle, forward, rotate, push, pos, radians. cbn [t_x t_y t_orientation t_trajectory t_stack fst snd app]. replace (0 * (PI / 180)) with 0 by lra. replace ((0 + 90) * (PI / 180)) with (PI / 2) by lra. rewrite sin_0, cos_0, sin_PI2, cos_PI2.
    replace (0 * 1 + 0) with 0 by lra. replace (1 * 1 + 0) with 1 by lra. replace (1 * 2 + 0) with 2 by lra. replace (0 * 2 + 1) with 1 by lra. split; reflexivity.
  - split; [reflexivity|]. intros [z Hz]. lia.
Qed.

Print Assumptions C62_forward.
Print Assumptions C62_turn_push.
Print Assumptions C62_push_pop.
Print Assumptions C62_lines.
Print Assumptions C62_raises.
Print Assumptions C62_full_turn.
Print Assumptions C71_rigid.
Print Assumptions C71_polygon.
Print Assumptions C71_straight.
