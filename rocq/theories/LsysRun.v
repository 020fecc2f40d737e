(** * Running the L-system scripts *)
From Coq Require Import Ascii Lia.
From Verif Require Import Py PyFacts ListFacts Network Evolve EvolveStatic Rules SubstSpec Subst SubstProofs2 PropSubst Turtle Plot PropRender LsysSpec Lsys.
From Coq Require Import Reals.
Open Scope string_scope.
Open Scope list_scope.
Open Scope Z_scope.

(** the successor of a letter: a constant stays, the other letters have the word of their rule *)
Definition successor (d : lsystem) (c : ascii) : option (list ascii) :=
  if in_dec string_dec (String c "") (l_constants d) then Some [c] else option_map letters (dget (l_rules d) (String c "")).
Definition succ_word (d : lsystem) (c : ascii) : list ascii := match successor d c with Some w => w | None => [] end.
(** every key and constant is one character *)
Definition context_free (d : lsystem) : Prop := l_rules d <> [] /\ forall w, In w (dkeys (l_rules d)) \/ In w (l_constants d) -> String.length w = 1%nat.

Lemma windows_1 s : windows 1 s = map (fun c => [c]) s.
Proof.
  unfold windows. rewrite Nat.add_sub. induction s as [|c s IH]; [reflexivity|]. cbn [length seq map]. f_equal. rewrite <- seq_shift, map_map. exact IH.
Qed.

Section Words.
  Context (d : lsystem) (rules : dict string string).
  Context (Hr : forall w, dget rules w = if in_dec eqd w (l_constants d) then Some w else dget (l_rules d) w).

  Lemma image_1 c : image rules [c] = successor d c.
  Proof.
    unfold image, successor. cbn [string_of_list_ascii]. rewrite Hr. destruct (in_dec eqd (String c "") (l_constants d)) as [Hi|Hi], (in_dec string_dec (String c "") (l_constants d)) as [Hj|Hj]; try contradiction; reflexivity.
  Qed.
  Lemma rewrite_1 s : rewrite_all rules 1 s = if forallb (fun c => match successor d c with Some _ => true | None => false end) s then Some (flat_map (succ_word d) s) else None.
  Proof.
    unfold rewrite_all. rewrite windows_1. induction s as [|c s IH]; [reflexivity|]. cbn [map images forallb flat_map]. rewrite image_1, IH. unfold succ_word. destruct (successor d c) as [w|]; [|reflexivity]. cbn [andb].
    destruct (forallb _ s); reflexivity.
  Qed.
  Lemma rewrite_some s : (forall c, In c s -> successor d c <> None) -> rewrite_all rules 1 s = Some (flat_map (succ_word d) s).
  Proof.
    intros Hs. rewrite rewrite_1. assert (E : forallb (fun c => match successor d c with Some _ => true | None => false end) s = true) by (apply forallb_forall; intros c Hc; specialize (Hs c Hc); destruct (successor d c); congruence). rewrite E. reflexivity.
  Qed.
  Lemma rewrite_none s c : In c s -> successor d c = None -> rewrite_all rules 1 s = None.
  Proof.
    intros Hc Es. rewrite rewrite_1. assert (E : forallb (fun c => match successor d c with Some _ => true | None => false end) s = false) by (apply not_true_iff_false; intros E; rewrite forallb_forall in E; specialize (E c Hc); rewrite Es in E; discriminate). rewrite E. reflexivity.
  Qed.

  Definition words (n : nat) (s : list ascii) : list (list ascii) := map (fun i => generation (succ_word d) i s) (seq 0 n).
  Lemma nth_words n s i : nth_error (words n s) i = if (i <? n)%nat then Some (generation (succ_word d) i s) else None.
  Proof.
    unfold words. destruct (Nat.ltb_spec i n) as [Hi|Hi].
    - erewrite map_nth_error; [reflexivity|]. rewrite (nth_error_nth' _ 0%nat) by (rewrite seq_length; assumption). rewrite seq_nth by assumption. reflexivity.
    - apply nth_error_None. rewrite map_length, seq_length. assumption.
  Qed.
  Lemma words_derivation n s : (1 <= n)%nat -> (forall i c, (i + 1 < n)%nat -> In c (generation (succ_word d) i s) -> successor d c <> None) -> derivation rules 1 s (words n s).
  Proof.
    intros Hn Hs. split; [rewrite nth_words; destruct (Nat.ltb_spec 0 n); [reflexivity|lia]|]. intros i a b. rewrite !nth_words. destruct (Nat.ltb_spec i n) as [Hi|Hi]; [|discriminate]. destruct (Nat.ltb_spec (i + 1) n) as [Hj|Hj]; [|discriminate].
    intros E1 E2. injection E1 as <-. injection E2 as <-. rewrite rewrite_some by (intros c Hc; apply (Hs i c Hj Hc)). rewrite Nat.add_1_r. reflexivity.
  Qed.
End Words.

Lemma rmap_axiom s : rmap str_conv (letters s) = Ok (axiom_of s).
Proof. unfold axiom_of. induction (letters s) as [|c l IH]; [reflexivity|]. cbn [rmap map]. rewrite IH. reflexivity. Qed.

Section Run.
  Context {V BA BN I : Type} (W : env Z V string BA BN) (Hlab : forall i, e_lab W i = Z.of_nat i).
  Context (d : lsystem) (Hcf : context_free d) (Hax : l_axiom d <> "").

  Notation gen n := (generation (succ_word d) n (letters (l_axiom d))).

  Lemma axiom_ne : axiom_of (l_axiom d) <> [].
  Proof. unfold axiom_of, letters. destruct (l_axiom d); [contradiction|]. discriminate. Qed.
  Lemma lsys_init : exists rules net u, subst_init (V := V) (axiom_of (l_axiom d)) (l_rules d) (l_constants d) = Ok (rules, 1, net, u) /\
      forall w, dget rules w = if in_dec eqd w (l_constants d) then Some w else dget (l_rules d) w.
  Proof. destruct Hcf as [H1 H2]. exact (C46_init (V := V) _ _ _ 1 axiom_ne H1 (le_n 1) H2). Qed.

  Lemma str_val (rules : dict string string) w y : image rules w = Some y -> exists l, rmap str_conv y = Ok l.
  Proof. intros _. apply rmap_total. intros c _. eexists. reflexivity. Qed.
  Lemma str_str c a : str_conv c = Ok a -> a = String c "".
  Proof. intros E. injection E as <-. reflexivity. Qed.
  Lemma lsys_plain rules k : plain (V := V) (I := I) (fun a => a) str_conv (lsys_args rules k) rules k.
  Proof. unfold plain, static. repeat split. Qed.

  Lemma lsys_run fuel : 1 <= l_timesteps d -> (Z.to_nat (l_timesteps d) < fuel)%nat ->
    (forall n c, (n + 1 < Z.to_nat (l_timesteps d))%nat -> In c (gen n) -> successor d c <> None) ->
    exists traj, lsys_trajectory (I := I) W fuel d = Ok traj /\ Forall2 (displays str_conv W) traj (words d (Z.to_nat (l_timesteps d)) (letters (l_axiom d))).
  Proof.
    intros HT Hf Hs. unfold lsys_trajectory. destruct lsys_init as (rules & net & u & E & Hr). rewrite E. cbn [rbind].
    assert (Hl : length (words d (Z.to_nat (l_timesteps d)) (letters (l_axiom d))) = Z.to_nat (l_timesteps d)) by (unfold words; rewrite map_length, seq_length; reflexivity).
    destruct (C46_parallel_rewriting (fun a => a) str_conv W fuel (lsys_args (I := I) rules 1) _ _ _ rules 1 net u (letters (l_axiom d)) (words d (Z.to_nat (l_timesteps d)) (letters (l_axiom d))) E) as (uf & traj & Ee & Hd).
    - lia.
    - exact str_str.
    - apply str_val.
    - apply lsys_plain.
    - exact Hlab.
    - apply rmap_axiom.
    - apply words_derivation; [assumption|lia|assumption].
    - rewrite Hl. assumption.
    - rewrite Hl, Z2Nat.id in Ee by lia. rewrite Ee. cbn [rbind]. exists traj. auto.
  Qed.

  Lemma lsys_missing fuel n c : 1 <= l_timesteps d -> (Z.to_nat (l_timesteps d) < fuel)%nat -> (n + 1 < Z.to_nat (l_timesteps d))%nat -> In c (gen n) -> successor d c = None ->
    (forall m c, (m < n)%nat -> In c (gen m) -> successor d c <> None) -> lsys_trajectory (I := I) W fuel d = Err KeyError.
  Proof.
    intros HT Hf Hn Hc Hsc Hs. unfold lsys_trajectory. destruct lsys_init as (rules & net & u & E & Hr). rewrite E. cbn [rbind].
    rewrite (C46_missing_rule (fun a => a) str_conv W fuel (lsys_args (I := I) rules 1) _ _ _ rules 1 net u (letters (l_axiom d)) (words d (n + 1) (letters (l_axiom d))) (l_timesteps d) E); try reflexivity; try lia; try assumption.
    - exact str_str.
    - apply str_val.
    - apply lsys_plain.
    - apply rmap_axiom.
    - apply words_derivation; [assumption|lia|]. intros i c' Hi. apply Hs. lia.
    - unfold words. rewrite seq_app, map_app. cbn [seq map]. rewrite last_last. apply (rewrite_none d _ Hr _ c); assumption.
    - unfold words. rewrite map_length, seq_length. lia.
  Qed.

  Lemma words_snoc n s : words d (Datatypes.S n) s = words d n s ++ [generation (succ_word d) n s].
  Proof. unfold words. replace (Datatypes.S n) with (n + 1)%nat by lia. rewrite seq_app, map_app. reflexivity. Qed.
  Lemma Forall2_snoc {X Y} (P : X -> Y -> Prop) xs ys y : Forall2 P xs (ys ++ [y]) -> exists xs' x, xs = xs' ++ [x] /\ P x y.
  Proof. intros Hf. apply Forall2_app_inv_r in Hf. destruct Hf as (l1 & l2 & H1 & H2 & ->). inversion H2 as [|x ? l ? Hx Hl]. subst. inversion Hl. subst. exists l1, x. auto. Qed.

  Lemma letters_string s : letters (string_of_list_ascii s) = s.
  Proof. apply list_ascii_of_string_of_list_ascii. Qed.

  Lemma lsys_draws fuel : 1 <= l_timesteps d -> (Z.to_nat (l_timesteps d) < fuel)%nat ->
    (forall n c, (n + 1 < Z.to_nat (l_timesteps d))%nat -> In c (gen n) -> successor d c <> None) ->
    lsys_script (I := I) W fuel d = match gen (Z.to_nat (l_timesteps d) - 1) with [] => Err TypeError | w => Ok (render (l_bindings d) w (new_turtle 0%R 0%R (l_orientation d))) end.
  Proof.
    intros HT Hf Hs. unfold lsys_script. destruct (lsys_run fuel HT Hf Hs) as (traj & E & Hd). rewrite E. cbn [rbind]. unfold lsys_last.
    replace (Z.to_nat (l_timesteps d)) with (Datatypes.S (Z.to_nat (l_timesteps d) - 1)) in Hd by lia. rewrite words_snoc in Hd. apply Forall2_snoc in Hd. destruct Hd as (xs & st & -> & Hst).
    rewrite rev_app_distr. cbn [rev app].
    destruct (gen (Z.to_nat (l_timesteps d) - 1)) as [|c w] eqn:Eg.
    - rewrite (C46_to_string_empty W [st] [[]]); [reflexivity|constructor; [assumption|constructor]|left; reflexivity].
    - rewrite (C46_to_string W [st] [c :: w]); [|constructor; [assumption|constructor]|constructor; [discriminate|constructor]]. cbn [map rbind]. rewrite letters_string. reflexivity.
  Qed.
End Run.

(** for a system whose letters all have successors *)
Definition complete (d : lsystem) (alphabet : list ascii) : Prop :=
  (forall c, In c (letters (l_axiom d)) -> In c alphabet) /\ forall c, In c alphabet -> exists w, successor d c = Some w /\ forall c', In c' w -> In c' alphabet.
Lemma generation_alphabet d alphabet n : complete d alphabet -> forall c, In c (generation (succ_word d) n (letters (l_axiom d))) -> In c alphabet.
Proof.
  intros [H1 H2]. induction n as [|n IH]; cbn [generation]; [assumption|]. intros c Hc. apply in_flat_map in Hc. destruct Hc as (c0 & H0 & Hc). destruct (H2 c0 (IH c0 H0)) as (w & E & Hw). unfold succ_word in Hc. rewrite E in Hc. auto.
Qed.

Lemma generation_app {C} (h : C -> list C) n : forall w w', generation h n (w ++ w') = generation h n w ++ generation h n w'.
Proof. induction n as [|n IH]; intros w w'; [reflexivity|]. cbn [generation]. rewrite IH. apply flat_map_app. Qed.
Lemma generation_S {C} (h : C -> list C) n w : generation h (Datatypes.S n) w = generation h n (flat_map h w).
Proof. induction n as [|n IH]; [reflexivity|]. cbn [generation] in *. rewrite IH. reflexivity. Qed.
Lemma generation_nil {C} (h : C -> list C) n : generation h n [] = [].
Proof. induction n as [|n IH]; [reflexivity|]. cbn [generation]. rewrite IH. reflexivity. Qed.
Lemma generation_cons {C} (h : C -> list C) n c w : generation h n (c :: w) = generation h n [c] ++ generation h n w.
Proof. apply (generation_app h n [c] w). Qed.
Lemma generation_const {C} (h : C -> list C) n c : h c = [c] -> generation h n [c] = [c].
Proof. intros E. induction n as [|n IH]; [reflexivity|]. cbn [generation]. rewrite IH. cbn [flat_map]. rewrite E. reflexivity. Qed.
