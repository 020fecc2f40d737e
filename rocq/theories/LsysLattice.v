(** * The square lattice and the turtle *)
From Coq Require Import Ascii Lia Permutation Reals Lra.
From Verif Require Import Py PyFacts Turtle PropTurtle LsysSpec LsysDraw.
Open Scope list_scope.
Open Scope Z_scope.

Lemma pen_end_app a b s : pen_end (a ++ b) s = pen_end b (pen_end a s).
Proof. apply fold_left_app. Qed.
Lemma segments_app a b : forall s, segments (a ++ b) s = segments a s ++ segments b (pen_end a s).
Proof. induction a as [|m a IH]; intros s; [reflexivity|]. cbn [app segments]. rewrite IH, app_assoc. reflexivity. Qed.

(** coordinates relative to a pen: along its heading, and to the left of it *)
Definition place (s : pen) (z : point) : point :=
  (fst (p_at s) + fst z * fst (p_to s) - snd z * snd (p_to s), snd (p_at s) + fst z * snd (p_to s) + snd z * fst (p_to s)).
Definition turn (s : pen) (u : point) : point := (fst u * fst (p_to s) - snd u * snd (p_to s), fst u * snd (p_to s) + snd u * fst (p_to s)).
Definition put (s s0 : pen) : pen := mkPen (place s (p_at s0)) (turn s (p_to s0)).
Definition standard : pen := mkPen (0, 0) (1, 0).
Definition place2 (s : pen) (l : point * point) : point * point := (place s (fst l), place s (snd l)).

Lemma put_standard s : put s standard = s.
Proof. destruct s as [[x y] [u v]]. unfold put, standard, place, turn. cbn [p_at p_to fst snd]. f_equal; f_equal; ring. Qed.
Lemma put_step s s0 m : lstep (put s s0) m = put s (lstep s0 m).
Proof.
  destruct s as [[x y] [u v]], s0 as [[x0 y0] [u0 v0]]. destruct m; unfold lstep, put, place, turn, add, right_of, left_of; cbn [p_at p_to fst snd]; f_equal; f_equal; ring.
Qed.
Lemma put_end s ms : forall s0, pen_end ms (put s s0) = put s (pen_end ms s0).
Proof. unfold pen_end. induction ms as [|m ms IH]; intros s0; [reflexivity|]. cbn [fold_left]. rewrite put_step. apply IH. Qed.
Lemma put_segments s ms : forall s0, segments ms (put s s0) = map (place2 s) (segments ms s0).
Proof.
  induction ms as [|m ms IH]; intros s0; [reflexivity|]. cbn [segments]. rewrite put_step, IH, map_app. f_equal. destruct m; try reflexivity. cbn [map]. unfold place2. cbn [fst snd].
  destruct s as [[x y] [u v]], s0 as [[x0 y0] [u0 v0]]. unfold put, place, turn, add. cbn [p_at p_to fst snd]. apply (f_equal (fun x => [x])), (f_equal2 pair); [reflexivity|]. apply (f_equal2 pair); ring.
Qed.
Lemma end_at s ms : pen_end ms s = put s (pen_end ms standard).
Proof. rewrite <- put_end, put_standard. reflexivity. Qed.
Lemma segments_at s ms : segments ms s = map (place2 s) (segments ms standard).
Proof. rewrite <- put_segments, put_standard. reflexivity. Qed.
Lemma visited_at s ms : visited ms s = map (place s) (visited ms standard).
Proof.
  unfold visited. rewrite (segments_at s). cbn [map]. f_equal; [|rewrite !map_map; reflexivity]. destruct s as [[x y] [u v]]. unfold place, standard. cbn [p_at p_to fst snd]. f_equal; ring.
Qed.
Lemma segments_unit ms : forall s a b, In (a, b) (segments ms s) -> exists h, b = add a h /\ (h = p_to s \/ h = right_of (p_to s) \/ h = left_of (p_to s) \/ h = right_of (right_of (p_to s))).
Proof.
  induction ms as [|m ms IH]; intros s a b Hin; [destruct Hin|]. cbn [segments] in Hin. apply in_app_or in Hin. destruct Hin as [Hin|Hin].
  - destruct m; try destruct Hin. injection H as <- <-. exists (p_to s). auto. destruct H.
  - apply IH in Hin. destruct Hin as (h & E & Hh). exists h. split; [assumption|]. destruct s as [p [u v]]. destruct m; unfold lstep, right_of, left_of in *; cbn [p_to fst snd] in *; rewrite ?Z.opp_involutive in *; tauto.
Qed.

(** the segments join consecutive points *)
Definition joins (pts : list point) : list (point * point) := combine pts (tl pts).
Lemma segments_joins ms : forall s, segments ms s = joins (visited ms s).
Proof.
  unfold joins, visited. induction ms as [|m ms IH]; intros s; [reflexivity|]. cbn [tl] in *. cbn [segments]. destruct m; cbn [app map]; [|apply (IH (lstep s Rightwards))|apply (IH (lstep s Leftwards))].
  cbn [combine]. f_equal. rewrite (IH (lstep s Ahead)) at 1. reflexivity.
Qed.
Lemma visited_turn m ms s : m <> Ahead -> visited (m :: ms) s = visited ms (lstep s m).
Proof. intros Hm. unfold visited. destruct m; [contradiction|reflexivity|reflexivity]. Qed.
Lemma visited_app_turns a b s : Forall (fun m => m <> Ahead) b -> visited (a ++ b) s = visited a s.
Proof.
  intros Hb. unfold visited. rewrite segments_app. f_equal. generalize (pen_end a s). intros s1. replace (segments b s1) with (@nil (point * point)); [rewrite app_nil_r; reflexivity|].
  revert s1. induction Hb as [|m b Hm Hb IH]; intros s1; [reflexivity|]. cbn [segments]. rewrite <- IH. destruct m; [contradiction|reflexivity|reflexivity].
Qed.
Lemma visited_ahead a b s : visited (a ++ Ahead :: b) s = visited a s ++ visited b (lstep (pen_end a s) Ahead).
Proof. unfold visited. rewrite segments_app. cbn [segments app]. rewrite map_app. reflexivity. Qed.

(** ** the turtle on the lattice *)
Open Scope R_scope.
Definition lattice_cmd (m : lmove) : cmd := match m with Ahead => Forward 1 | Rightwards => Rotate 90 | Leftwards => Rotate (-90) end.
Definition real_point (p : point) : R * R := (IZR (fst p), IZR (snd p)).
Definition real_line (l : point * point) : (R * R) * (R * R) := line (real_point (fst l)) (real_point (snd l)).
Lemma bearing_right a u : bearing a = real_point u -> bearing (a + 90) = real_point (right_of u).
Proof.
  unfold bearing, real_point, right_of. cbn [fst snd]. intros E. injection E as E1 E2. replace ((a + 90) / 180 * PI) with (PI / 2 + a / 180 * PI) by (field; lra). rewrite opp_IZR, <- E1, <- E2. f_equal.
  - rewrite sin_plus, sin_PI2, cos_PI2. ring.
  - rewrite cos_plus, sin_PI2, cos_PI2. ring.
Qed.
Lemma bearing_left a u : bearing a = real_point u -> bearing (a + -90) = real_point (left_of u).
Proof.
  unfold bearing, real_point, left_of. cbn [fst snd]. intros E. injection E as E1 E2. replace ((a + -90) / 180 * PI) with (a / 180 * PI - PI / 2) by (field; lra). rewrite opp_IZR, <- E1, <- E2. f_equal.
  - rewrite sin_minus, sin_PI2, cos_PI2. ring.
  - rewrite cos_minus, sin_PI2, cos_PI2. ring.
Qed.
Lemma real_add p q : vadd (real_point p) (real_point q) = real_point (add p q).
Proof. unfold vadd, real_point, add. cbn [fst snd]. rewrite !plus_IZR. reflexivity. Qed.
Lemma lattice_run ms : forall t s, pos t = real_point (p_at s) -> bearing (t_orientation t) = real_point (p_to s) ->
  exists a, leads (map lattice_cmd ms) t (map real_line (segments ms s)) (real_point (p_at (pen_end ms s))) a /\ bearing a = real_point (p_to (pen_end ms s)).
Proof.
  induction ms as [|m ms IH]; intros t s Hp Hb.
  - exists (t_orientation t). split; [|exact Hb]. cbn [map segments pen_end fold_left]. rewrite <- Hp. apply leads_nil.
  - cbn [map segments pen_end fold_left].
    assert (Hs : exists a1, leads [lattice_cmd m] t (map real_line (match m with Ahead => [(p_at s, add (p_at s) (p_to s))] | _ => [] end)) (real_point (p_at (lstep s m))) a1 /\ bearing a1 = real_point (p_to (lstep s m))).
    { destruct m; cbn [lattice_cmd lstep p_at p_to map].
      - exists (t_orientation t). split; [|exact Hb]. pose proof (leads_forward t) as Hl. unfold ahead in Hl. rewrite Hp, Hb, real_add in Hl. exact Hl.
      - exists (t_orientation t + 90). split; [rewrite <- Hp; apply leads_rotate|]. apply bearing_right. assumption.
      - exists (t_orientation t + -90). split; [rewrite <- Hp; apply leads_rotate|]. apply bearing_left. assumption. }
    destruct Hs as (a1 & Hl1 & Hb1).
    destruct (IH (mkTurtle (fst (real_point (p_at (lstep s m)))) (snd (real_point (p_at (lstep s m)))) a1 (t_trajectory t ++ map real_line (match m with Ahead => [(p_at s, add (p_at s) (p_to s))] | _ => [] end)) (t_stack t)) (lstep s m)) as (a & Hl & Ha).
    + reflexivity.
    + exact Hb1.
    + exists a. split; [|exact Ha]. rewrite map_app. change (lattice_cmd m :: map lattice_cmd ms) with ([lattice_cmd m] ++ map lattice_cmd ms). eapply leads_app; [exact Hl1|exact Hl].
Qed.
