(** * From words to drawings *)
From Coq Require Import Ascii Lia Permutation Reals Lra.
From Verif Require Import Py PyFacts Rules Turtle Plot PropTurtle PropRender LsysSpec Lsys LsysRun.
Open Scope string_scope.
Open Scope list_scope.

(** ** rendering with methods of the turtle *)
Definition commands (b : dict ascii (binding turtle)) (f : ascii -> list cmd) (w : list ascii) : Prop :=
  forall c, In c w -> dget b c = Some (Many (map method (f c))) \/ exists m, f c = [m] /\ dget b c = Some (One (method m)).
Lemma render_run b f w : commands b f w -> forall t t', run (flat_map f w) t = Ok t' -> render b w t = (t', Ok tt).
Proof.
  intros Hb t t' Hr. rewrite render_execute by (intros c Hc; destruct (Hb c Hc) as [E|(m & _ & E)]; rewrite E; discriminate).
  assert (E : all_instructions b w = map method (flat_map f w)).
  { clear t t' Hr. induction w as [|c w IH]; [reflexivity|]. unfold all_instructions in *. cbn [flat_map]. rewrite map_app, IH by (intros c' Hc'; apply Hb; right; assumption). f_equal.
    destruct (Hb c (or_introl eq_refl)) as [E|(m & Em & E)]; rewrite E; [reflexivity|]. rewrite Em. reflexivity. }
  rewrite E, execute_methods, Hr. reflexivity.
Qed.

Open Scope R_scope.

(** ** vectors *)
Definition vadd (p q : R * R) : R * R := (fst p + fst q, snd p + snd q).
Definition vmul (k : R) (p : R * R) : R * R := (k * fst p, k * snd p).

Lemma forward_spec t : let t' := forward 1 t in pos t' = vadd (pos t) (bearing (t_orientation t)) /\ t_orientation t' = t_orientation t /\ t_stack t' = t_stack t /\
  t_trajectory t' = t_trajectory t ++ [line (pos t) (vadd (pos t) (bearing (t_orientation t)))].
Proof.
  cbv zeta. assert (E : pos (forward 1 t) = vadd (pos t) (bearing (t_orientation t))).
  { unfold forward, pos, vadd, bearing, radians. cbn. replace (t_orientation t / 180 * PI) with (t_orientation t * (PI / 180)) by (field; lra). f_equal; ring. }
  repeat split; [assumption|]. rewrite <- E. reflexivity.
Qed.

(** [m] unit lines from [p] along [u] *)
Definition straight (m : nat) (p u : R * R) : list ((R * R) * (R * R)) :=
  map (fun i => line (vadd p (vmul (INR i) u)) (vadd p (vmul (INR (i + 1)) u))) (seq 0 m).
Lemma vadd_0 p u : vadd p (vmul 0 u) = p.
Proof. destruct p as [x y]. unfold vadd, vmul. cbn. f_equal; ring. Qed.
Lemma vadd_assoc p q r : vadd (vadd p q) r = vadd p (vadd q r).
Proof. unfold vadd. cbn. f_equal; ring. Qed.
Lemma vadd_mul k l u : vadd (vmul k u) (vmul l u) = vmul (k + l) u.
Proof. unfold vadd, vmul. cbn. f_equal; ring. Qed.
Lemma vmul_1 u : vmul 1 u = u.
Proof. destruct u as [x y]. unfold vmul. cbn. f_equal; ring. Qed.
Lemma straight_app m n p u : straight (m + n) p u = straight m p u ++ straight n (vadd p (vmul (INR m) u)) u.
Proof.
  unfold straight. rewrite seq_app, map_app. f_equal. cbn [plus].
  assert (Hg : forall n a, map (fun i => line (vadd p (vmul (INR i) u)) (vadd p (vmul (INR (i + 1)) u))) (seq (m + a) n) =
    map (fun i => line (vadd (vadd p (vmul (INR m) u)) (vmul (INR i) u)) (vadd (vadd p (vmul (INR m) u)) (vmul (INR (i + 1)) u))) (seq a n)).
  { clear n. induction n as [|n IH]; intros a; [reflexivity|]. cbn [seq map]. replace (S (m + a)) with (m + S a)%nat by lia. rewrite IH. f_equal. rewrite !vadd_assoc, !vadd_mul, <- !plus_INR.
    replace (m + a + 1)%nat with (m + (a + 1))%nat by lia. reflexivity. }
  specialize (Hg n 0%nat). rewrite Nat.add_0_r in Hg. exact Hg.
Qed.
Lemma straight_1 p u : straight 1 p u = [line p (vadd p u)].
Proof. unfold straight. cbn [seq map]. cbn [INR plus]. rewrite vadd_0, vmul_1. reflexivity. Qed.
Lemma straight_length m p u : length (straight m p u) = m.
Proof. unfold straight. rewrite map_length, seq_length. reflexivity. Qed.

Definition ahead (t : turtle) : R * R := bearing (t_orientation t).
(** [leads cs t ls p a]: the commands succeed, add the lines, and leave the turtle at [p] with orientation [a] and its stack *)
Definition leads (cs : list cmd) (t : turtle) (ls : list ((R * R) * (R * R))) (p : R * R) (a : R) : Prop :=
  run cs t = Ok (mkTurtle (fst p) (snd p) a (t_trajectory t ++ ls) (t_stack t)).

Lemma turtle_eta t : t = mkTurtle (fst (pos t)) (snd (pos t)) (t_orientation t) (t_trajectory t) (t_stack t).
Proof. destruct t. reflexivity. Qed.
Lemma leads_nil t : leads [] t [] (pos t) (t_orientation t).
Proof. unfold leads. cbn. rewrite app_nil_r. destruct t. reflexivity. Qed.
Lemma leads_forward t : leads [Forward 1] t [line (pos t) (vadd (pos t) (ahead t))] (vadd (pos t) (ahead t)) (t_orientation t).
Proof.
  unfold leads, run. cbn [rfold step rbind]. destruct (forward_spec t) as (H1 & H2 & H3 & H4). f_equal. rewrite (turtle_eta (forward 1 t)). rewrite H1, H2, H3, H4. reflexivity.
Qed.
Lemma leads_rotate t a : leads [Rotate a] t [] (pos t) (t_orientation t + a).
Proof. unfold leads, run. cbn. rewrite app_nil_r. reflexivity. Qed.
Lemma leads_app cs cs' t ls ls' p a p' a' : leads cs t ls p a ->
  leads cs' (mkTurtle (fst p) (snd p) a (t_trajectory t ++ ls) (t_stack t)) ls' p' a' -> leads (cs ++ cs') t (ls ++ ls') p' a'.
Proof. unfold leads. intros H1 H2. rewrite run_app, H1. cbn [rbind]. rewrite H2. cbn. rewrite app_assoc. reflexivity. Qed.
(** a drawing that depends only on position and orientation *)
Definition figure_of (cs : list cmd) (ls : R * R -> R -> list ((R * R) * (R * R))) (p' : R * R -> R -> R * R) (a' : R * R -> R -> R) : Prop :=
  forall t, leads cs t (ls (pos t) (t_orientation t)) (p' (pos t) (t_orientation t)) (a' (pos t) (t_orientation t)).
Lemma fig_app cs cs' ls p a ls' p' a' : figure_of cs ls p a -> figure_of cs' ls' p' a' ->
  figure_of (cs ++ cs') (fun q o => ls q o ++ ls' (p q o) (a q o)) (fun q o => p' (p q o) (a q o)) (fun q o => a' (p q o) (a q o)).
Proof.
  intros H1 H2 t. eapply leads_app; [apply H1|]. specialize (H2 (mkTurtle (fst (p (pos t) (t_orientation t))) (snd (p (pos t) (t_orientation t))) (a (pos t) (t_orientation t)) (t_trajectory t ++ ls (pos t) (t_orientation t)) (t_stack t))).
  unfold pos in *. cbn in *. rewrite <- surjective_pairing in H2. exact H2.
Qed.
Lemma fig_nil : figure_of [] (fun _ _ => []) (fun q _ => q) (fun _ o => o).
Proof. intros t. apply leads_nil. Qed.
Lemma fig_forward : figure_of [Forward 1] (fun q o => [line q (vadd q (bearing o))]) (fun q o => vadd q (bearing o)) (fun _ o => o).
Proof. intros t. apply leads_forward. Qed.
Lemma fig_rotate a : figure_of [Rotate a] (fun _ _ => []) (fun q _ => q) (fun _ o => o + a).
Proof. intros t. apply leads_rotate. Qed.
Lemma fig_ext cs ls p a ls' p' a' : figure_of cs ls p a -> (forall q o, ls q o = ls' q o) -> (forall q o, p q o = p' q o) -> (forall q o, a q o = a' q o) -> figure_of cs ls' p' a'.
Proof. intros Hf H1 H2 H3 t. rewrite <- H1, <- H2, <- H3. apply Hf. Qed.
(** push, a drawing, pop *)
Lemma fig_bracket cs ls p a : figure_of cs ls p a -> figure_of (Push :: cs ++ [Pop]) ls (fun q _ => q) (fun _ o => o).
Proof.
  intros Hf t. unfold leads. change (run (Push :: cs ++ [Pop]) t) with (run (cs ++ [Pop]) (push t)). rewrite run_app. pose proof (Hf (push t)) as E. unfold leads in E. rewrite E. destruct t. reflexivity.
Qed.

Lemma fig_straight m : figure_of (repeat (Forward 1) m) (fun q o => straight m q (bearing o)) (fun q o => vadd q (vmul (INR m) (bearing o))) (fun _ o => o).
Proof.
  induction m as [|m IH].
  - eapply fig_ext; [apply fig_nil|reflexivity| |reflexivity]. intros q o. cbn [INR]. rewrite vadd_0. reflexivity.
  - change (repeat (Forward 1) (S m)) with ([Forward 1] ++ repeat (Forward 1) m). eapply fig_ext; [exact (fig_app _ _ _ _ _ _ _ _ fig_forward IH)| | |reflexivity]; intros q o; cbn beta.
    + change (S m) with (1 + m)%nat. rewrite straight_app, straight_1. cbn [INR]. rewrite vmul_1. reflexivity.
    + rewrite S_INR, vadd_assoc. f_equal. rewrite <- (vmul_1 (bearing o)) at 1. rewrite vadd_mul. f_equal. ring.
Qed.
