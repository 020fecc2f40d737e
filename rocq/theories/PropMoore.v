(** * C115: the Moore curve of the demo *)
From Coq Require Import Ascii Lia Permutation Reals Lra.
From Verif Require Import Py PyFacts ListFacts Network Evolve Rules Subst PropSubst Turtle Plot PropTurtle PropRender LsysSpec Lsys LsysRun LsysDraw LsysLattice PropLsys PropKoch.
Open Scope string_scope.
Open Scope list_scope.
Open Scope Z_scope.

Definition moore_move (c : ascii) : list lmove :=
  if ascii_dec c "F" then [Ahead] else if ascii_dec c "+" then [Rightwards] else if ascii_dec c "-" then [Leftwards] else [].
Definition l_moves (T : Z) (n : nat) : list lmove := flat_map moore_move (generation (succ_word (moore T)) n (letters "L")).
Definition r_moves (T : Z) (n : nat) : list lmove := flat_map moore_move (generation (succ_word (moore T)) n (letters "R")).
Definition a_moves (T : Z) (n : nat) : list lmove := flat_map moore_move (generation (succ_word (moore T)) n (letters "LFL+F+LFL")).
Lemma moore_moves T n : let L := l_moves T n in let R := r_moves T n in
  l_moves T (S n) = Leftwards :: (R ++ Ahead :: Rightwards :: (L ++ Ahead :: ((L ++ [Rightwards]) ++ Ahead :: (R ++ [Leftwards])))) /\
  r_moves T (S n) = Rightwards :: (L ++ Ahead :: Leftwards :: (R ++ Ahead :: ((R ++ [Leftwards]) ++ Ahead :: (L ++ [Rightwards])))) /\
  a_moves T n = L ++ Ahead :: ((L ++ [Rightwards]) ++ Ahead :: Rightwards :: (L ++ Ahead :: L)).
Proof.
  cbv zeta. unfold l_moves, r_moves, a_moves. destruct (moore_step T n) as (E1 & E2 & E3). rewrite E1, E2, E3. change ["L"%char] with (letters "L"). change ["R"%char] with (letters "R"). rewrite !flat_map_app. repeat split; cbn [app]; rewrite <- ?app_assoc; reflexivity.
Qed.

(** the square to the left of the heading, and the one to the right *)
Definition square_left (m : Z) (z : point) : Prop := 0 <= fst z < m /\ 0 <= snd z < m.
Definition square_right (m : Z) (z : point) : Prop := 0 <= fst z < m /\ - m < snd z <= 0.
Definition fills (ms : list lmove) (P : point -> Prop) : Prop := NoDup (visited ms standard) /\ forall z, In z (visited ms standard) <-> P z.

(** the coordinates relative to a pen with a heading of length one *)
Definition unplace (s : pen) (z : point) : point :=
  let x := fst z - fst (p_at s) in let y := snd z - snd (p_at s) in (x * fst (p_to s) + y * snd (p_to s), y * fst (p_to s) - x * snd (p_to s)).
Definition unit_pen (s : pen) : Prop := fst (p_to s) * fst (p_to s) + snd (p_to s) * snd (p_to s) = 1.
Lemma place_unplace s z : unit_pen s -> place s (unplace s z) = z.
Proof.
  destruct s as [[px py] [u v]], z as [x y]. unfold unit_pen, place, unplace. cbn [p_at p_to fst snd]. intros E. apply (f_equal2 pair).
  - transitivity (px + (x - px) * (u * u + v * v)); [ring|]. rewrite E. ring.
  - transitivity (py + (y - py) * (u * u + v * v)); [ring|]. rewrite E. ring.
Qed.
Lemma unplace_place s z : unit_pen s -> unplace s (place s z) = z.
Proof.
  destruct s as [[px py] [u v]], z as [x y]. unfold unit_pen, place, unplace. cbn [p_at p_to fst snd]. intros E. apply (f_equal2 pair).
  - transitivity (x * (u * u + v * v)); [ring|]. rewrite E. ring.
  - transitivity (y * (u * u + v * v)); [ring|]. rewrite E. ring.
Qed.
Lemma fills_at ms P s : fills ms P -> unit_pen s -> NoDup (visited ms s) /\ forall z, In z (visited ms s) <-> P (unplace s z).
Proof.
  intros [H1 H2] Hs. rewrite visited_at. split.
  - apply NoDup_map_in; [|assumption]. intros a b _ _ E. rewrite <- (unplace_place s a Hs), E. apply unplace_place. assumption.
  - intros z. rewrite in_map_iff. split.
    + intros (z0 & <- & Hz). rewrite unplace_place by assumption. apply H2. assumption.
    + intros Hz. exists (unplace s z). split; [apply place_unplace; assumption|apply H2; assumption].
Qed.
Lemma NoDup_app_disjoint {X} (a b : list X) : NoDup a -> NoDup b -> (forall x, In x a -> ~ In x b) -> NoDup (a ++ b).
Proof.
  intros Ha Hb Hab. induction Ha as [|x a Hx Ha IH]; [assumption|]. cbn [app]. constructor.
  - intros Hin. apply in_app_or in Hin. destruct Hin as [Hin|Hin]; [contradiction|]. apply (Hab x); [left; reflexivity|assumption].
  - apply IH. intros y Hy. apply Hab. right. assumption.
Qed.
Lemma in_app_parts {X} (a b : list X) (P Q S : X -> Prop) : NoDup a /\ (forall x, In x a <-> P x) -> NoDup b /\ (forall x, In x b <-> Q x) -> (forall x, P x -> Q x -> False) -> (forall x, S x <-> P x \/ Q x) ->
  NoDup (a ++ b) /\ forall x, In x (a ++ b) <-> S x.
Proof.
  intros [Na Pa] [Nb Pb] Hd HS. split; [apply NoDup_app_disjoint; try assumption; intros x H1 H2; apply Pa in H1; apply Pb in H2; exact (Hd x H1 H2)|]. intros x. rewrite in_app_iff, Pa, Pb, HS. tauto.
Qed.

Ltac pens := unfold put, place, turn, lstep, left_of, right_of, add; cbn [p_at p_to fst snd].
Ltac pen_eq := apply (f_equal2 mkPen); apply (f_equal2 pair); ring.
Lemma moore_blocks T n : let m := 2 ^ Z.of_nat n in
  (fills (l_moves T n) (square_left m) /\ pen_end (l_moves T n) standard = mkPen (m - 1, 0) (1, 0)) /\
  (fills (r_moves T n) (square_right m) /\ pen_end (r_moves T n) standard = mkPen (m - 1, 0) (1, 0)).
Proof.
  cbv zeta. induction n as [|n [[FL EL] [FR ER]]].
  - assert (Hv : forall P, (forall z, P z <-> z = (0, 0)) -> forall ms, ms = [] -> fills ms P).
    { intros P HP ms ->. split; [repeat constructor; intros []|]. intros z. cbn. rewrite HP. split; [intros [E|[]]; congruence|intros ->; left; reflexivity]. }
    split; (split; [apply Hv; [|reflexivity]|reflexivity]); intros [x y]; unfold square_left, square_right; change (2 ^ Z.of_nat 0) with 1; cbn [fst snd]; (split; [intros Hz; f_equal; lia|intros E; injection E as -> ->; lia]).
  - rewrite pow_S. assert (Hm : 0 < 2 ^ Z.of_nat n) by (apply Z.pow_pos_nonneg; lia). set (m := 2 ^ Z.of_nat n) in *. clearbody m. destruct (moore_moves T n) as (E1 & E2 & _). rewrite E1, E2. clear E1 E2. set (L := l_moves T n) in *. set (R := r_moves T n) in *.
    assert (EndL : forall p u, pen_end L (mkPen p u) = mkPen (add p ((m - 1) * fst u, (m - 1) * snd u)) u) by (intros [px py] [u v]; rewrite end_at, EL; pens; pen_eq).
    assert (EndR : forall p u, pen_end R (mkPen p u) = mkPen (add p ((m - 1) * fst u, (m - 1) * snd u)) u) by (intros [px py] [u v]; rewrite end_at, ER; pens; pen_eq).
    split.
    + assert (Hpens : lstep (lstep (pen_end R (mkPen (0, 0) (0, 1))) Ahead) Rightwards = mkPen (0, m) (1, 0) /\ lstep (pen_end L (mkPen (0, m) (1, 0))) Ahead = mkPen (m, m) (1, 0) /\
        lstep (pen_end (L ++ [Rightwards]) (mkPen (m, m) (1, 0))) Ahead = mkPen (2 * m - 1, m - 1) (0, -1) /\ lstep (pen_end R (mkPen (2 * m - 1, m - 1) (0, -1))) Leftwards = mkPen (2 * m - 1, 0) (1, 0)).
      { rewrite pen_end_app, !EndL, !EndR. cbn [pen_end fold_left]. pens. repeat split; pen_eq. }
      destruct Hpens as (P1 & P2 & P3 & P4). split.
      * unfold fills. rewrite (visited_turn Leftwards) by discriminate. change (lstep standard Leftwards) with (mkPen (0, 0) (0, 1)). rewrite visited_ahead, (visited_turn Rightwards), P1 by discriminate. rewrite visited_ahead, P2, visited_ahead, P3. rewrite !visited_app_turns by (repeat constructor; discriminate).
        pose proof (fills_at R _ (mkPen (0, 0) (0, 1)) FR eq_refl) as B1. pose proof (fills_at L _ (mkPen (0, m) (1, 0)) FL eq_refl) as B2. pose proof (fills_at L _ (mkPen (m, m) (1, 0)) FL eq_refl) as B3. pose proof (fills_at R _ (mkPen (2 * m - 1, m - 1) (0, -1)) FR eq_refl) as B4.
        unfold square_left, square_right, unplace in *. cbn [p_at p_to fst snd] in *.
        apply (in_app_parts _ _ _ (fun z => 0 <= fst z < 2 * m /\ 0 <= snd z < 2 * m /\ (m <= fst z \/ m <= snd z)) _ B1); [|intros [x y]; cbn [fst snd]; lia|intros [x y]; cbn [fst snd]; lia].
        apply (in_app_parts _ _ _ (fun z => m <= fst z < 2 * m /\ 0 <= snd z < 2 * m) _ B2); [|intros [x y]; cbn [fst snd]; lia|intros [x y]; cbn [fst snd]; lia].
        apply (in_app_parts _ _ _ _ _ B3 B4); intros [x y]; cbn [fst snd]; lia.
      * cbn [pen_end fold_left]. change (fold_left lstep) with pen_end. change (lstep standard Leftwards) with (mkPen (0, 0) (0, 1)). rewrite pen_end_app. cbn [pen_end fold_left]. change (fold_left lstep) with pen_end. rewrite P1, pen_end_app. cbn [pen_end fold_left]. change (fold_left lstep) with pen_end. rewrite P2, pen_end_app. cbn [pen_end fold_left]. change (fold_left lstep) with pen_end. rewrite P3, pen_end_app. cbn [pen_end fold_left]. exact P4.
    + assert (Hpens : lstep (lstep (pen_end L (mkPen (0, 0) (0, -1))) Ahead) Leftwards = mkPen (0, - m) (1, 0) /\ lstep (pen_end R (mkPen (0, - m) (1, 0))) Ahead = mkPen (m, - m) (1, 0) /\
        lstep (pen_end (R ++ [Leftwards]) (mkPen (m, - m) (1, 0))) Ahead = mkPen (2 * m - 1, - m + 1) (0, 1) /\ lstep (pen_end L (mkPen (2 * m - 1, - m + 1) (0, 1))) Rightwards = mkPen (2 * m - 1, 0) (1, 0)).
      { rewrite pen_end_app, !EndL, !EndR. cbn [pen_end fold_left]. pens. repeat split; pen_eq. }
      destruct Hpens as (P1 & P2 & P3 & P4). split.
      * unfold fills. rewrite (visited_turn Rightwards) by discriminate. change (lstep standard Rightwards) with (mkPen (0, 0) (0, -1)). rewrite visited_ahead, (visited_turn Leftwards), P1 by discriminate. rewrite visited_ahead, P2, visited_ahead, P3. rewrite !visited_app_turns by (repeat constructor; discriminate).
        pose proof (fills_at L _ (mkPen (0, 0) (0, -1)) FL eq_refl) as B1. pose proof (fills_at R _ (mkPen (0, - m) (1, 0)) FR eq_refl) as B2. pose proof (fills_at R _ (mkPen (m, - m) (1, 0)) FR eq_refl) as B3. pose proof (fills_at L _ (mkPen (2 * m - 1, - m + 1) (0, 1)) FL eq_refl) as B4.
        unfold square_left, square_right, unplace in *. cbn [p_at p_to fst snd] in *.
        apply (in_app_parts _ _ _ (fun z => 0 <= fst z < 2 * m /\ - (2 * m) < snd z <= 0 /\ (m <= fst z \/ snd z <= - m)) _ B1); [|intros [x y]; cbn [fst snd]; lia|intros [x y]; cbn [fst snd]; lia].
        apply (in_app_parts _ _ _ (fun z => m <= fst z < 2 * m /\ - (2 * m) < snd z <= 0) _ B2); [|intros [x y]; cbn [fst snd]; lia|intros [x y]; cbn [fst snd]; lia].
        apply (in_app_parts _ _ _ _ _ B3 B4); intros [x y]; cbn [fst snd]; lia.
      * cbn [pen_end fold_left]. change (fold_left lstep) with pen_end. change (lstep standard Rightwards) with (mkPen (0, 0) (0, -1)). rewrite pen_end_app. cbn [pen_end fold_left]. change (fold_left lstep) with pen_end. rewrite P1, pen_end_app. cbn [pen_end fold_left]. change (fold_left lstep) with pen_end. rewrite P2, pen_end_app. cbn [pen_end fold_left]. change (fold_left lstep) with pen_end. rewrite P3, pen_end_app. cbn [pen_end fold_left]. exact P4.
Qed.

(** the whole curve, from the origin upwards *)
Lemma moore_whole T n : let m := 2 ^ Z.of_nat n in let s := mkPen (0, 0) (0, 1) in
  NoDup (visited (a_moves T n) s) /\ (forall x y, In (x, y) (visited (a_moves T n) s) <-> - m < x <= m /\ 0 <= y < 2 * m) /\ pen_end (a_moves T n) s = mkPen (1, 0) (0, -1).
Proof.
  cbv zeta. destruct (moore_blocks T n) as [[FL EL] _]. assert (Hm : 0 < 2 ^ Z.of_nat n) by (apply Z.pow_pos_nonneg; lia). set (m := 2 ^ Z.of_nat n) in *. clearbody m. destruct (moore_moves T n) as (_ & _ & E). rewrite E. clear E. set (L := l_moves T n) in *.
  assert (EndL : forall p u, pen_end L (mkPen p u) = mkPen (add p ((m - 1) * fst u, (m - 1) * snd u)) u) by (intros [px py] [u v]; rewrite end_at, EL; pens; pen_eq).
  assert (Hpens : lstep (pen_end L (mkPen (0, 0) (0, 1))) Ahead = mkPen (0, m) (0, 1) /\ lstep (lstep (pen_end (L ++ [Rightwards]) (mkPen (0, m) (0, 1))) Ahead) Rightwards = mkPen (1, 2 * m - 1) (0, -1) /\
    lstep (pen_end L (mkPen (1, 2 * m - 1) (0, -1))) Ahead = mkPen (1, m - 1) (0, -1) /\ pen_end L (mkPen (1, m - 1) (0, -1)) = mkPen (1, 0) (0, -1)).
  { rewrite pen_end_app, !EndL. cbn [pen_end fold_left]. pens. repeat split; pen_eq. }
  destruct Hpens as (P1 & P2 & P3 & P4).
  assert (HV : NoDup (visited (L ++ Ahead :: ((L ++ [Rightwards]) ++ Ahead :: Rightwards :: (L ++ Ahead :: L))) (mkPen (0, 0) (0, 1))) /\ forall z, In z (visited (L ++ Ahead :: ((L ++ [Rightwards]) ++ Ahead :: Rightwards :: (L ++ Ahead :: L))) (mkPen (0, 0) (0, 1))) <-> - m < fst z <= m /\ 0 <= snd z < 2 * m).
  { rewrite visited_ahead, P1, visited_ahead, (visited_turn Rightwards), P2, visited_ahead, P3 by discriminate. rewrite visited_app_turns by (repeat constructor; discriminate).
    pose proof (fills_at L _ (mkPen (0, 0) (0, 1)) FL eq_refl) as B1. pose proof (fills_at L _ (mkPen (0, m) (0, 1)) FL eq_refl) as B2. pose proof (fills_at L _ (mkPen (1, 2 * m - 1) (0, -1)) FL eq_refl) as B3. pose proof (fills_at L _ (mkPen (1, m - 1) (0, -1)) FL eq_refl) as B4.
    unfold square_left, unplace in *. cbn [p_at p_to fst snd] in *.
    apply (in_app_parts _ _ _ (fun z => - m < fst z <= m /\ 0 <= snd z < 2 * m /\ (0 < fst z \/ m <= snd z)) _ B1); [|intros [x y]; cbn [fst snd]; lia|intros [x y]; cbn [fst snd]; lia].
    apply (in_app_parts _ _ _ (fun z => 0 < fst z <= m /\ 0 <= snd z < 2 * m) _ B2); [|intros [x y]; cbn [fst snd]; lia|intros [x y]; cbn [fst snd]; lia].
    apply (in_app_parts _ _ _ _ _ B3 B4); intros [x y]; cbn [fst snd]; lia. }
  destruct HV as [H1 H2]. split; [assumption|]. split; [intros x y; apply (H2 (x, y))|].
  rewrite pen_end_app. cbn [pen_end fold_left]. change (fold_left lstep) with pen_end. rewrite P1, pen_end_app. cbn [pen_end fold_left]. change (fold_left lstep) with pen_end. rewrite P2, pen_end_app. cbn [pen_end fold_left]. change (fold_left lstep) with pen_end. rewrite P3. exact P4.
Qed.

Definition moore_cmd (c : ascii) : list cmd := map lattice_cmd (moore_move c).

(** The Moore script visits every point of a square of 2^T times 2^T lattice points exactly once, by steps of length one, and ends
    next to its start. *)
Theorem C115_moore : forall (V BA BN I : Type) (W : env Z V string BA BN) T fuel, (forall i, e_lab W i = Z.of_nat i) -> 1 <= T -> (Z.to_nat T < fuel)%nat ->
  exists t' pts, lsys_script (I := I) W fuel (moore T) = Ok (t', Ok tt) /\ t_stack t' = [] /\
    t_trajectory t' = map real_line (joins pts) /\ NoDup pts /\ (forall x y, In (x, y) pts <-> - 2 ^ (T - 1) < x <= 2 ^ (T - 1) /\ 0 <= y < 2 ^ T) /\
    hd_error pts = Some (0, 0) /\ last pts (0, 0) = (1, 0) /\ pos t' = (1%R, 0%R) /\ bearing (t_orientation t') = (0%R, (-1)%R) /\
    (forall a b, In (a, b) (joins pts) -> Z.abs (fst a - fst b) + Z.abs (snd a - snd b) = 1).
Proof.
  intros V BA BN I W T fuel Hlab HT Hf. set (n := (Z.to_nat T - 1)%nat). replace (T - 1) with (Z.of_nat n) by (unfold n; lia). replace (2 ^ T) with (2 * 2 ^ Z.of_nat n) by (rewrite <- pow_S; f_equal; unfold n; lia). destruct (moore_ok T) as [Hcf Hc].
  destruct (moore_whole T n) as (H1 & H2 & H3). set (s := mkPen (0, 0) (0, 1)) in *.
  assert (Hb0 : bearing 0 = real_point (0, 1)) by (rewrite bearing_0; reflexivity).
  destruct (lattice_run (a_moves T n) (new_turtle 0 0 0) s eq_refl Hb0) as (a & Hl & Ha). rewrite H3 in Hl, Ha. cbn [p_at p_to] in Hl, Ha.
  exists (mkTurtle (fst (real_point (1, 0))) (snd (real_point (1, 0))) a (map real_line (segments (a_moves T n) s)) []), (visited (a_moves T n) s). split.
  { apply (demo_runs W Hlab (moore T) (letters "LRF+-") fuel moore_cmd n _ _ a Hcf ltac:(discriminate) Hc HT Hf eq_refl).
    - intros c Hin. vm_compute in Hin. repeat (destruct Hin as [<-|Hin]; [first [right; eexists; split; reflexivity|left; reflexivity]|]). destruct Hin.
    - apply (occurrences_ne "F"). destruct (C113_growth T n) as (_ & _ & E & _). rewrite E. replace (Z.of_nat n + 1) with (Z.of_nat (S n)) by lia. rewrite pow_S. assert (0 < 4 ^ Z.of_nat n) by (apply Z.pow_pos_nonneg; lia). lia.
    - unfold moore_cmd. rewrite flat_map_map. exact Hl. }
  cbn [t_trajectory t_stack t_orientation]. split; [reflexivity|]. split; [rewrite segments_joins; reflexivity|]. split; [assumption|]. split; [assumption|]. split; [reflexivity|]. split.
  { assert (Hend : forall ms s0 d, last (visited ms s0) d = p_at (pen_end ms s0)).
    { clear. intros ms. induction ms as [|m ms IH]; intros s0 d; [reflexivity|]. cbn [pen_end fold_left]. change (fold_left lstep ms) with (pen_end ms). destruct m; [|rewrite visited_turn by discriminate; apply IH|rewrite visited_turn by discriminate; apply IH].
      rewrite <- (IH (lstep s0 Ahead) d). change (Ahead :: ms) with ([] ++ Ahead :: ms). rewrite visited_ahead. reflexivity. }
    rewrite Hend, H3. reflexivity. }
  split; [reflexivity|]. split; [exact Ha|]. rewrite <- segments_joins. intros x y Hi. apply segments_unit in Hi. destruct Hi as (h & -> & Hh). unfold s, right_of, left_of, add in *. cbn [p_to fst snd] in *.
  destruct Hh as [-> |[-> |[-> | -> ]]]; cbn [fst snd]; lia.
Qed.
Print Assumptions C115_moore.

(** ** Examples: the smallest curve, and the script's *)
Example C115_small : visited (a_moves 1 0) (mkPen (0, 0) (0, 1)) = [(0, 0); (0, 1); (1, 1); (1, 0)].
Proof. vm_compute. reflexivity. Qed.
Example C115_demo : exists t', lsys_script (I := unit) Ws 20 (moore moore_timesteps) = Ok (t', Ok tt) /\ pos t' = (1%R, 0%R).
Proof.
  destruct (C115_moore unit unit unit unit Ws moore_timesteps 20 (fun i => eq_refl) ltac:(unfold moore_timesteps; lia) ltac:(unfold moore_timesteps; lia)) as (t' & pts & E & _ & _ & _ & _ & _ & _ & Ep & _). exists t'. auto.
Qed.
