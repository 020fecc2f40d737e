(** * C113: the L-system demos: words, numbers of letters, the tree and the plant *)
From Coq Require Import Ascii Lia Permutation Reals Lra.
From Verif Require Import Py PyFacts ListFacts Network Evolve Rules SubstSpec Subst PropSubst Turtle Plot PropTurtle PropRender LsysSpec Lsys LsysRun LsysDraw.
Open Scope string_scope.
Open Scope list_scope.
Open Scope Z_scope.

(** ** the script of any context-free system draws the word rewritten timesteps - 1 times *)
Theorem C113_script : forall (V BA BN I : Type) (W : env Z V string BA BN) (d : lsystem) alphabet fuel,
  (forall i, e_lab W i = Z.of_nat i) -> context_free d -> l_axiom d <> "" -> complete d alphabet ->
  1 <= l_timesteps d -> (Z.to_nat (l_timesteps d) < fuel)%nat ->
  lsys_script (I := I) W fuel d =
    match generation (succ_word d) (Z.to_nat (l_timesteps d) - 1) (letters (l_axiom d)) with
    | [] => Err TypeError
    | w => Ok (render (l_bindings d) w (new_turtle 0%R 0%R (l_orientation d)))
    end.
Proof.
  intros V BA BN I W d alphabet fuel Hlab Hcf Hax Hc HT Hf. apply lsys_draws; try assumption. intros n c _ Hin. apply (generation_alphabet d alphabet n Hc) in Hin. destruct Hc as [_ H2]. destruct (H2 c Hin) as (w & E & _). rewrite E. discriminate.
Qed.
Print Assumptions C113_script.

(** a letter without rule raises, unless it appears only in the last word *)
Theorem C113_missing : forall (V BA BN I : Type) (W : env Z V string BA BN) (d : lsystem) fuel n c,
  (forall i, e_lab W i = Z.of_nat i) -> context_free d -> l_axiom d <> "" -> 1 <= l_timesteps d -> (Z.to_nat (l_timesteps d) < fuel)%nat ->
  (n + 1 < Z.to_nat (l_timesteps d))%nat -> In c (generation (succ_word d) n (letters (l_axiom d))) -> successor d c = None ->
  (forall m c', (m < n)%nat -> In c' (generation (succ_word d) m (letters (l_axiom d))) -> successor d c' <> None) ->
  lsys_script (I := I) W fuel d = Err KeyError.
Proof.
  intros V BA BN I W d fuel n c Hlab Hcf Hax HT Hf Hn Hc Hs Hm. unfold lsys_script. rewrite (lsys_missing W Hlab d Hcf Hax fuel n c); try assumption. reflexivity.
Qed.
Print Assumptions C113_missing.

(** ** the alphabets of the demos *)
Ltac alphabet := split; [intros c Hc; vm_compute in Hc; repeat (destruct Hc as [<-|Hc]; [vm_compute; tauto|]); destruct Hc|
  intros c Hc; vm_compute in Hc; repeat (destruct Hc as [<-|Hc]; [eexists; split; [vm_compute; reflexivity|]; intros c' Hc'; vm_compute in Hc'; vm_compute; tauto|]); destruct Hc].
Ltac contextfree := split; [discriminate|]; intros w [Hw|Hw]; vm_compute in Hw; repeat (destruct Hw as [<-|Hw]; [reflexivity|]); destruct Hw.
Lemma koch_ok T : context_free (koch T) /\ complete (koch T) (letters "F+-").
Proof. split; [contextfree|alphabet]. Qed.
Lemma sierpinski_ok T : context_free (sierpinski T) /\ complete (sierpinski T) (letters "FG+-").
Proof. split; [contextfree|alphabet]. Qed.
Lemma moore_ok T : context_free (moore T) /\ complete (moore T) (letters "LRF+-").
Proof. split; [contextfree|alphabet]. Qed.
Lemma tree_ok T : context_free (tree T) /\ complete (tree T) (letters "10[]").
Proof. split; [contextfree|alphabet]. Qed.
Lemma plant_ok T : context_free (plant T) /\ complete (plant T) (letters "XF+-[]").
Proof. split; [contextfree|alphabet]. Qed.

(** ** the numbers of letters *)
Lemma occurrences_app c w w' : occurrences c (w ++ w') = occurrences c w + occurrences c w'.
Proof. induction w as [|d w IH]; [reflexivity|]. cbn [app occurrences]. rewrite IH. lia. Qed.

(** split the next generation into the generations of the letters *)
Ltac split_word := rewrite ?(generation_cons _ _ _ (_ :: _)).
Lemma pow_S b n : b ^ Z.of_nat (S n) = b * b ^ Z.of_nat n.
Proof. rewrite Nat2Z.inj_succ, Z.pow_succ_r by lia. reflexivity. Qed.
Ltac constants := repeat match goal with |- context [generation ?h ?n [?c]] => rewrite (generation_const h n c) by reflexivity end.
Ltac counting := rewrite ?occurrences_app; cbn [occurrences]; repeat match goal with |- context [ascii_dec ?a ?b] => destruct (ascii_dec a b) as [?E|_]; [first [discriminate|clear E]|first [idtac|congruence]] end.

Lemma koch_step T n : generation (succ_word (koch T)) (S n) (letters "F") =
  let f := generation (succ_word (koch T)) n (letters "F") in f ++ letters "+" ++ f ++ letters "-" ++ f ++ letters "-" ++ f ++ letters "+" ++ f.
Proof. rewrite generation_S. change (flat_map (succ_word (koch T)) (letters "F")) with (letters "F+F-F-F+F"). unfold letters. cbn [list_ascii_of_string]. split_word. constants. reflexivity. Qed.
Lemma koch_count T n : occurrences "F" (generation (succ_word (koch T)) n (letters "F")) = 5 ^ Z.of_nat n.
Proof. induction n as [|n IH]; [reflexivity|]. rewrite koch_step. cbv zeta. rewrite !occurrences_app, IH, pow_S. change (occurrences "F" (letters "+")) with 0. change (occurrences "F" (letters "-")) with 0. lia. Qed.

Lemma sierpinski_step T n : let g c := generation (succ_word (sierpinski T)) n [c] in
  generation (succ_word (sierpinski T)) (S n) (letters "F") = g "F"%char ++ letters "-" ++ g "G"%char ++ letters "+" ++ g "F"%char ++ letters "+" ++ g "G"%char ++ letters "-" ++ g "F"%char /\
  generation (succ_word (sierpinski T)) (S n) (letters "G") = g "G"%char ++ g "G"%char /\
  generation (succ_word (sierpinski T)) n (letters "F-G-G") = g "F"%char ++ letters "-" ++ g "G"%char ++ letters "-" ++ g "G"%char.
Proof.
  cbv zeta. rewrite !generation_S. change (flat_map (succ_word (sierpinski T)) (letters "F")) with (letters "F-G+F+G-F"). change (flat_map (succ_word (sierpinski T)) (letters "G")) with (letters "GG").
  unfold letters. cbn [list_ascii_of_string]. split_word. constants. repeat split.
Qed.
Lemma sierpinski_count T n : let g c := generation (succ_word (sierpinski T)) n [c] in
  occurrences "F" (g "F"%char) = 3 ^ Z.of_nat n /\ occurrences "G" (g "F"%char) = 2 * (3 ^ Z.of_nat n - 2 ^ Z.of_nat n) /\ occurrences "F" (g "G"%char) = 0 /\ occurrences "G" (g "G"%char) = 2 ^ Z.of_nat n.
Proof.
  cbv zeta. induction n as [|n (H1 & H2 & H3 & H4)]; [repeat split; reflexivity|]. destruct (sierpinski_step T n) as (E1 & E2 & _). unfold letters in E1, E2. cbn [list_ascii_of_string] in E1, E2. rewrite E1, E2.
  rewrite !occurrences_app, H1, H2, H3, H4, !pow_S. cbn [occurrences]. repeat (destruct (ascii_dec _ _); [discriminate|]). repeat split; lia.
Qed.

Lemma moore_step T n : let g c := generation (succ_word (moore T)) n [c] in let L := g "L"%char in let R := g "R"%char in
  generation (succ_word (moore T)) (S n) (letters "L") = letters "-" ++ R ++ letters "F+" ++ L ++ letters "F" ++ L ++ letters "+F" ++ R ++ letters "-" /\
  generation (succ_word (moore T)) (S n) (letters "R") = letters "+" ++ L ++ letters "F-" ++ R ++ letters "F" ++ R ++ letters "-F" ++ L ++ letters "+" /\
  generation (succ_word (moore T)) n (letters "LFL+F+LFL") = L ++ letters "F" ++ L ++ letters "+F+" ++ L ++ letters "F" ++ L.
Proof.
  cbv zeta. rewrite !generation_S. change (flat_map (succ_word (moore T)) (letters "L")) with (letters "-RF+LFL+FR-"). change (flat_map (succ_word (moore T)) (letters "R")) with (letters "+LF-RFR-FL+").
  unfold letters. cbn [list_ascii_of_string]. split_word. constants. repeat split.
Qed.
Lemma moore_count T n : let g c := generation (succ_word (moore T)) n [c] in
  occurrences "F" (g "L"%char) = 4 ^ Z.of_nat n - 1 /\ occurrences "F" (g "R"%char) = 4 ^ Z.of_nat n - 1.
Proof.
  cbv zeta. induction n as [|n (H1 & H2)]; [repeat split; reflexivity|]. destruct (moore_step T n) as (E1 & E2 & _). change (letters "L") with ["L"%char] in E1. change (letters "R") with ["R"%char] in E2. rewrite E1, E2.
  rewrite !occurrences_app, H1, H2, !pow_S. unfold letters. cbn [list_ascii_of_string occurrences]. repeat (destruct (ascii_dec _ _); try discriminate; try congruence). split; lia.
Qed.

Lemma tree_step T n : let g c := generation (succ_word (tree T)) n [c] in
  generation (succ_word (tree T)) (S n) (letters "0") = g "1"%char ++ letters "[" ++ g "0"%char ++ letters "]" ++ g "0"%char /\
  generation (succ_word (tree T)) (S n) (letters "1") = g "1"%char ++ g "1"%char.
Proof.
  cbv zeta. rewrite !generation_S. change (flat_map (succ_word (tree T)) (letters "0")) with (letters "1[0]0"). change (flat_map (succ_word (tree T)) (letters "1")) with (letters "11").
  unfold letters. cbn [list_ascii_of_string]. split_word. constants. repeat split.
Qed.
Lemma repeat_double {X} (x : X) n : repeat x (2 ^ S n) = repeat x (2 ^ n) ++ repeat x (2 ^ n).
Proof. rewrite <- repeat_app. f_equal. cbn [Nat.pow]. lia. Qed.
Lemma tree_stem T n : generation (succ_word (tree T)) n (letters "1") = repeat "1"%char (2 ^ n).
Proof. induction n as [|n IH]; [reflexivity|]. destruct (tree_step T n) as (_ & ->). change ["1"%char] with (letters "1"). rewrite IH, repeat_double. reflexivity. Qed.
Lemma occurrences_repeat c d n : occurrences c (repeat d n) = if ascii_dec c d then Z.of_nat n else 0.
Proof. induction n as [|n IH]; [cbn; destruct (ascii_dec c d); reflexivity|]. cbn [repeat occurrences]. rewrite IH. destruct (ascii_dec c d); lia. Qed.
Lemma pow_nat b n : Z.of_nat (b ^ n) = Z.of_nat b ^ Z.of_nat n.
Proof. induction n as [|n IH]; [reflexivity|]. cbn [Nat.pow]. rewrite pow_S. lia. Qed.
Lemma tree_count T n : let w := generation (succ_word (tree T)) n (letters "0") in
  occurrences "0" w = 2 ^ Z.of_nat n /\ 2 * occurrences "1" w = Z.of_nat n * 2 ^ Z.of_nat n /\ occurrences "[" w = 2 ^ Z.of_nat n - 1 /\ occurrences "]" w = 2 ^ Z.of_nat n - 1.
Proof.
  cbv zeta. induction n as [|n (H1 & H2 & H3 & H4)]; [repeat split; reflexivity|]. destruct (tree_step T n) as (-> & _). change ["1"%char] with (letters "1"). change ["0"%char] with (letters "0"). rewrite tree_stem.
  rewrite !occurrences_app, !occurrences_repeat, pow_nat, H1, H3, H4, !pow_S. change (Z.of_nat 2) with 2. unfold letters in *. cbn [list_ascii_of_string] in *. set (o1 := occurrences "1" _) in *. cbn [occurrences]. repeat (destruct (ascii_dec _ _); try discriminate; try congruence). repeat split; lia.
Qed.

Lemma plant_step T n : let g c := generation (succ_word (plant T)) n [c] in let X := g "X"%char in let F := g "F"%char in
  generation (succ_word (plant T)) (S n) (letters "X") = F ++ letters "+[[" ++ X ++ letters "]-" ++ X ++ letters "]-" ++ F ++ letters "[-" ++ F ++ X ++ letters "]+" ++ X /\
  generation (succ_word (plant T)) (S n) (letters "F") = F ++ F.
Proof.
  cbv zeta. rewrite !generation_S. change (flat_map (succ_word (plant T)) (letters "X")) with (letters "F+[[X]-X]-F[-FX]+X"). change (flat_map (succ_word (plant T)) (letters "F")) with (letters "FF").
  unfold letters. cbn [list_ascii_of_string]. split_word. constants. repeat split.
Qed.
Lemma plant_stem T n : generation (succ_word (plant T)) n (letters "F") = repeat "F"%char (2 ^ n).
Proof. induction n as [|n IH]; [reflexivity|]. destruct (plant_step T n) as (_ & ->). change ["F"%char] with (letters "F"). rewrite IH, repeat_double. reflexivity. Qed.
Lemma plant_count T n : let w := generation (succ_word (plant T)) n (letters "X") in
  occurrences "X" w = 4 ^ Z.of_nat n /\ 2 * occurrences "F" w = 3 * (4 ^ Z.of_nat n - 2 ^ Z.of_nat n) /\ occurrences "[" w = 4 ^ Z.of_nat n - 1 /\ occurrences "]" w = 4 ^ Z.of_nat n - 1.
Proof.
  cbv zeta. induction n as [|n (H1 & H2 & H3 & H4)]; [repeat split; reflexivity|]. destruct (plant_step T n) as (-> & _). change ["X"%char] with (letters "X"). change ["F"%char] with (letters "F"). rewrite plant_stem.
  rewrite !occurrences_app, !occurrences_repeat, pow_nat, H1, H3, H4, !pow_S. change (Z.of_nat 2) with 2. unfold letters in *. cbn [list_ascii_of_string] in *. set (o1 := occurrences "F" (generation _ _ _)) in *. cbn [occurrences]. repeat (destruct (ascii_dec _ _); try discriminate; try congruence). repeat split; lia.
Qed.

(** the letters after n rewritings, for every n *)
Theorem C113_growth : forall T n,
  occurrences "F" (generation (succ_word (koch T)) n (letters (l_axiom (koch T)))) = 5 ^ Z.of_nat n /\
  (let w := generation (succ_word (sierpinski T)) n (letters (l_axiom (sierpinski T))) in occurrences "F" w = 3 ^ Z.of_nat n /\ occurrences "G" w = 2 * 3 ^ Z.of_nat n) /\
  occurrences "F" (generation (succ_word (moore T)) n (letters (l_axiom (moore T)))) = 4 ^ (Z.of_nat n + 1) - 1 /\
  (let w := generation (succ_word (tree T)) n (letters (l_axiom (tree T))) in occurrences "0" w = 2 ^ Z.of_nat n /\ 2 * occurrences "1" w = Z.of_nat n * 2 ^ Z.of_nat n) /\
  (let w := generation (succ_word (plant T)) n (letters (l_axiom (plant T))) in occurrences "X" w = 4 ^ Z.of_nat n /\ 2 * occurrences "F" w = 3 * (4 ^ Z.of_nat n - 2 ^ Z.of_nat n)).
Proof.
  intros T n. split; [apply koch_count|]. split.
  { cbv zeta. change (l_axiom (sierpinski T)) with "F-G-G". destruct (sierpinski_step T n) as (_ & _ & ->). destruct (sierpinski_count T n) as (H1 & H2 & H3 & H4). rewrite !occurrences_app, H1, H2, H3, H4.
    unfold letters. cbn [list_ascii_of_string occurrences]. repeat (destruct (ascii_dec _ _); try discriminate; try congruence). split; lia. }
  split.
  { change (l_axiom (moore T)) with "LFL+F+LFL". destruct (moore_step T n) as (_ & _ & ->). destruct (moore_count T n) as (H1 & H2). rewrite !occurrences_app, H1. unfold letters. cbn [list_ascii_of_string occurrences]. repeat (destruct (ascii_dec _ _); try discriminate; try congruence).
    rewrite (Z.add_1_r (Z.of_nat n)), Z.pow_succ_r by lia. lia. }
  split; [destruct (tree_count T n) as (H1 & H2 & _); split; assumption|destruct (plant_count T n) as (H1 & H2 & _); split; assumption].
Qed.
Print Assumptions C113_growth.

(** ** the tree: a trunk and two smaller trees, turned by 45 degrees to the left and to the right *)
Open Scope R_scope.
Fixpoint tree_lines (n : nat) (p : R * R) (a : R) : list ((R * R) * (R * R)) :=
  match n with
  | O => [line p (vadd p (bearing a))]
  | S n => let tip := vadd p (vmul (INR (2 ^ n)) (bearing a)) in
           straight (2 ^ n) p (bearing a) ++ tree_lines n tip (a - 45) ++ tree_lines n tip (a + 45)
  end.
(** ** the plant: a stem of two halves; four smaller plants: two at the middle, one to the left and one straight, one at the end of
    a branch to the right of the top, one to the left at the top *)
Fixpoint plant_lines (n : nat) (p : R * R) (a : R) : list ((R * R) * (R * R)) :=
  match n with
  | O => []
  | S n => let m := (2 ^ n)%nat in
           let middle := vadd p (vmul (INR m) (bearing a)) in
           let top := vadd middle (vmul (INR m) (bearing a)) in
           let side := vadd top (vmul (INR m) (bearing (a + 25))) in
           straight m p (bearing a) ++ plant_lines n middle (a - 25) ++ plant_lines n middle a ++ straight m middle (bearing a) ++
           straight m top (bearing (a + 25)) ++ plant_lines n side (a + 25) ++ plant_lines n top (a - 25)
  end.

Definition tree_cmd (c : ascii) : list cmd :=
  if ascii_dec c "[" then [Push; Rotate (-45)] else if ascii_dec c "]" then [Pop; Rotate 45] else [Forward 1].
Definition plant_cmd (c : ascii) : list cmd :=
  if ascii_dec c "[" then [Push] else if ascii_dec c "]" then [Pop] else if ascii_dec c "+" then [Rotate (-25)] else if ascii_dec c "-" then [Rotate 25] else
  if ascii_dec c "F" then [Forward 1] else [].

Lemma flat_repeat {X} (f : X -> list cmd) c x n : f c = [x] -> flat_map f (repeat c n) = repeat x n.
Proof. intros E. induction n as [|n IH]; [reflexivity|]. cbn [repeat flat_map]. rewrite IH, E. reflexivity. Qed.

Lemma tree_figure T n : exists p a, figure_of (flat_map tree_cmd (generation (succ_word (tree T)) n (letters "0"))) (tree_lines n) p a.
Proof.
  induction n as [|n (p & a & IH)].
  - eexists _, _. change (flat_map tree_cmd (generation (succ_word (tree T)) 0 (letters "0"))) with [Forward 1]. exact fig_forward.
  - eexists _, _. destruct (tree_step T n) as (-> & _). change ["1"%char] with (letters "1"). change ["0"%char] with (letters "0"). rewrite tree_stem, !flat_map_app, (flat_repeat tree_cmd "1"%char (Forward 1)) by reflexivity.
    set (G := flat_map tree_cmd (generation _ _ _)) in *.
    change (flat_map tree_cmd (letters "[")) with [Push; Rotate (-45)]. change (flat_map tree_cmd (letters "]")) with [Pop; Rotate 45].
    assert (E : [Push; Rotate (-45)] ++ G ++ [Pop; Rotate 45] ++ G = (Push :: ([Rotate (-45)] ++ G) ++ [Pop]) ++ [Rotate 45] ++ G) by (cbn [app]; rewrite <- app_assoc; reflexivity). rewrite E.
    pose proof (fig_app _ _ _ _ _ _ _ _ (fig_straight (2 ^ n)) (fig_app _ _ _ _ _ _ _ _ (fig_bracket _ _ _ _ (fig_app _ _ _ _ _ _ _ _ (fig_rotate (-45)) IH)) (fig_app _ _ _ _ _ _ _ _ (fig_rotate 45) IH))) as Hf.
    eapply fig_ext; [exact Hf| |reflexivity|reflexivity]. intros q o. cbn beta. cbn [app tree_lines]. reflexivity.
Qed.
Lemma plant_figure T n : exists p a, figure_of (flat_map plant_cmd (generation (succ_word (plant T)) n (letters "X"))) (plant_lines n) p a.
Proof.
  induction n as [|n (p & a & IH)].
  - eexists _, _. change (flat_map plant_cmd (generation (succ_word (plant T)) 0 (letters "X"))) with (@nil cmd). exact fig_nil.
  - eexists _, _. destruct (plant_step T n) as (-> & _). change ["X"%char] with (letters "X"). change ["F"%char] with (letters "F"). rewrite plant_stem, !flat_map_app, (flat_repeat plant_cmd "F"%char (Forward 1)) by reflexivity.
    set (G := flat_map plant_cmd (generation _ _ _)) in *. set (m := (2 ^ n)%nat).
    change (flat_map plant_cmd (letters "+[[")) with [Rotate (-25); Push; Push]. change (flat_map plant_cmd (letters "]-")) with [Pop; Rotate 25]. change (flat_map plant_cmd (letters "[-")) with [Push; Rotate 25]. change (flat_map plant_cmd (letters "]+")) with [Pop; Rotate (-25)].
    assert (E : repeat (Forward 1) m ++ [Rotate (-25); Push; Push] ++ G ++ [Pop; Rotate 25] ++ G ++ [Pop; Rotate 25] ++ repeat (Forward 1) m ++ [Push; Rotate 25] ++ repeat (Forward 1) m ++ G ++ [Pop; Rotate (-25)] ++ G =
      repeat (Forward 1) m ++ [Rotate (-25)] ++ (Push :: ((Push :: G ++ [Pop]) ++ [Rotate 25] ++ G) ++ [Pop]) ++ [Rotate 25] ++ repeat (Forward 1) m ++ (Push :: ([Rotate 25] ++ repeat (Forward 1) m ++ G) ++ [Pop]) ++ [Rotate (-25)] ++ G)
      by (cbn [app]; rewrite <- ?app_assoc; cbn [app]; rewrite <- ?app_assoc; reflexivity).
    rewrite E.
    pose proof (fig_app _ _ _ _ _ _ _ _ (fig_straight m) (fig_app _ _ _ _ _ _ _ _ (fig_rotate (-25)) (fig_app _ _ _ _ _ _ _ _
      (fig_bracket _ _ _ _ (fig_app _ _ _ _ _ _ _ _ (fig_bracket _ _ _ _ IH) (fig_app _ _ _ _ _ _ _ _ (fig_rotate 25) IH)))
      (fig_app _ _ _ _ _ _ _ _ (fig_rotate 25) (fig_app _ _ _ _ _ _ _ _ (fig_straight m) (fig_app _ _ _ _ _ _ _ _
        (fig_bracket _ _ _ _ (fig_app _ _ _ _ _ _ _ _ (fig_rotate 25) (fig_app _ _ _ _ _ _ _ _ (fig_straight m) IH)))
        (fig_app _ _ _ _ _ _ _ _ (fig_rotate (-25)) IH))))))) as Hf.
    eapply fig_ext; [exact Hf| |reflexivity|reflexivity]. intros q o. cbn beta. cbn [app plant_lines]. replace (o + -25 + 25) with o by ring. rewrite <- !app_assoc. reflexivity.
Qed.

(** the reflection at the vertical axis *)
Definition mirror (p : R * R) : R * R := (- fst p, snd p).
Definition mirror_line (l : (R * R) * (R * R)) : (R * R) * (R * R) := ((- fst (fst l), - snd (fst l)), snd l).
Lemma mirror_bearing a : mirror (bearing a) = bearing (- a).
Proof. unfold mirror, bearing. cbn. replace (- a / 180 * PI) with (- (a / 180 * PI)) by (field; lra). rewrite sin_neg, cos_neg. reflexivity. Qed.
Lemma mirror_add p k u : mirror (vadd p (vmul k u)) = vadd (mirror p) (vmul k (mirror u)).
Proof. unfold mirror, vadd, vmul. cbn. f_equal. ring. Qed.
Lemma mirror_line_line p q : mirror_line (line p q) = line (mirror p) (mirror q).
Proof. reflexivity. Qed.
Lemma mirror_straight m p a : map mirror_line (straight m p (bearing a)) = straight m (mirror p) (bearing (- a)).
Proof. unfold straight. rewrite map_map. apply map_ext. intros i. rewrite mirror_line_line, !mirror_add, mirror_bearing. reflexivity. Qed.
Lemma tree_mirror n : forall p a, Permutation (map mirror_line (tree_lines n p a)) (tree_lines n (mirror p) (- a)).
Proof.
  induction n as [|n IH]; intros p a; cbn [tree_lines]; cbv zeta.
  - cbn [map]. rewrite mirror_line_line, <- mirror_bearing. unfold vadd, mirror at 2. cbn [fst snd]. replace (- (fst p + fst (bearing a))) with (fst (mirror p) + fst (mirror (bearing a))) by (cbn; ring). apply Permutation_refl.
  - rewrite !map_app, mirror_straight. apply Permutation_app_head. rewrite (IH _ (a - 45)), (IH _ (a + 45)), !mirror_add, !mirror_bearing.
    replace (- (a - 45)) with (- a + 45) by ring. replace (- (a + 45)) with (- a - 45) by ring. apply Permutation_app_comm.
Qed.
Lemma tree_length n : forall p a, (2 * length (tree_lines n p a) = (n + 2) * 2 ^ n)%nat.
Proof. induction n as [|n IH]; intros p a; cbn [tree_lines]; [reflexivity|]. cbv zeta. rewrite !app_length, straight_length. cbn [Nat.pow]. pose proof (IH (vadd p (vmul (INR (2 ^ n)) (bearing a))) (a - 45)). pose proof (IH (vadd p (vmul (INR (2 ^ n)) (bearing a))) (a + 45)). nia. Qed.
Lemma plant_length n : forall p a, (2 * length (plant_lines n p a) + 3 * 2 ^ n = 3 * 4 ^ n)%nat.
Proof.
  induction n as [|n IH]; intros p a; cbn [plant_lines]; [reflexivity|]. cbv zeta. set (m := (2 ^ n)%nat) in *. rewrite !app_length, !straight_length. cbn [Nat.pow]. fold m.
  set (middle := vadd p _). set (top := vadd middle _). set (side := vadd top _). pose proof (IH middle (a - 25)). pose proof (IH middle a). pose proof (IH side (a + 25)). pose proof (IH top (a - 25)). lia.
Qed.

Section Demos.
  Context {V BA BN I : Type} (W : env Z V string BA BN) (Hlab : forall i, e_lab W i = Z.of_nat i).

  Lemma demo_runs d alphabet fuel f n ls p a : context_free d -> l_axiom d <> "" -> complete d alphabet -> (1 <= l_timesteps d)%Z -> (Z.to_nat (l_timesteps d) < fuel)%nat -> n = (Z.to_nat (l_timesteps d) - 1)%nat ->
    (forall c, In c alphabet -> dget (l_bindings d) c = Some (Many (map method (f c))) \/ exists m, f c = [m] /\ dget (l_bindings d) c = Some (One (method m))) ->
    generation (succ_word d) n (letters (l_axiom d)) <> [] ->
    leads (flat_map f (generation (succ_word d) n (letters (l_axiom d)))) (new_turtle 0 0 (l_orientation d)) ls p a ->
    lsys_script (I := I) W fuel d = Ok (mkTurtle (fst p) (snd p) a ls [], Ok tt).
  Proof.
    intros Hcf Hax Hc HT Hf -> Hb Hne Hl. rewrite (C113_script V BA BN I W d alphabet fuel Hlab Hcf Hax Hc HT Hf). set (w := generation _ _ _) in *.
    assert (E : render (l_bindings d) w (new_turtle 0 0 (l_orientation d)) = (mkTurtle (fst p) (snd p) a ls [], Ok tt)).
    { apply (render_run _ f); [|exact Hl]. intros c Hin. apply Hb. apply (generation_alphabet d alphabet _ Hc c Hin). }
    rewrite <- E. destruct w; [contradiction|reflexivity].
  Qed.
  Lemma occurrences_ne c w : (0 < occurrences c w)%Z -> w <> [].
  Proof. intros Ho ->. cbn in Ho. lia. Qed.

  Lemma tree_script T fuel : (1 <= T)%Z -> (Z.to_nat T < fuel)%nat ->
    exists t', lsys_script (I := I) W fuel (tree T) = Ok (t', Ok tt) /\ t_stack t' = [] /\ t_trajectory t' = tree_lines (Z.to_nat T - 1) (0, 0) 0.
  Proof.
    intros HT Hf. set (n := (Z.to_nat T - 1)%nat). destruct (tree_figure T n) as (p & a & Hfig). specialize (Hfig (new_turtle 0 0 0)). destruct (tree_ok T) as [Hcf Hc].
    eexists. split; [apply (demo_runs (tree T) (letters "10[]") fuel tree_cmd n (tree_lines n (0, 0) 0) (p (0, 0) 0) (a (0, 0) 0) Hcf ltac:(discriminate) Hc HT Hf eq_refl)|].
    - intros c Hin. vm_compute in Hin. destruct Hin as [<-|[<-|[<-|[<-|[]]]]]; first [right; eexists; split; reflexivity|left; reflexivity].
    - apply (occurrences_ne "0"). destruct (tree_count T n) as (E & _). change (l_axiom (tree T)) with "0". rewrite E. apply Z.pow_pos_nonneg; lia.
    - exact Hfig.
    - split; reflexivity.
  Qed.
  Lemma plant_script T fuel : (1 <= T)%Z -> (Z.to_nat T < fuel)%nat ->
    exists t', lsys_script (I := I) W fuel (plant T) = Ok (t', Ok tt) /\ t_stack t' = [] /\ t_trajectory t' = plant_lines (Z.to_nat T - 1) (0, 0) 25.
  Proof.
    intros HT Hf. set (n := (Z.to_nat T - 1)%nat). destruct (plant_figure T n) as (p & a & Hfig). specialize (Hfig (new_turtle 0 0 25)). destruct (plant_ok T) as [Hcf Hc].
    eexists. split; [apply (demo_runs (plant T) (letters "XF+-[]") fuel plant_cmd n (plant_lines n (0, 0) 25) (p (0, 0) 25) (a (0, 0) 25) Hcf ltac:(discriminate) Hc HT Hf eq_refl)|].
    - intros c Hin. vm_compute in Hin. repeat (destruct Hin as [<-|Hin]; [first [right; eexists; split; reflexivity|left; reflexivity]|]). destruct Hin.
    - apply (occurrences_ne "X"). destruct (plant_count T n) as (E & _). change (l_axiom (plant T)) with "X". rewrite E. apply Z.pow_pos_nonneg; lia.
    - exact Hfig.
    - split; reflexivity.
  Qed.
End Demos.

Theorem C113_tree : forall (V BA BN I : Type) (W : env Z V string BA BN) T fuel, (forall i, e_lab W i = Z.of_nat i) -> (1 <= T)%Z -> (Z.to_nat T < fuel)%nat ->
  exists t', lsys_script (I := I) W fuel (tree T) = Ok (t', Ok tt) /\ t_stack t' = [] /\ t_trajectory t' = tree_lines (Z.to_nat T - 1) (0, 0) 0 /\
    (2 * Z.of_nat (length (t_trajectory t')) = (T + 1) * 2 ^ (T - 1))%Z /\ Permutation (map mirror_line (t_trajectory t')) (t_trajectory t').
Proof.
  intros V BA BN I W T fuel Hlab HT Hf. destruct (tree_script (I := I) W Hlab T fuel HT Hf) as (t' & E & Hs & Ht). exists t'. split; [assumption|]. split; [assumption|]. split; [assumption|]. rewrite Ht. split.
  - pose proof (tree_length (Z.to_nat T - 1) (0, 0) 0) as Hl. apply (f_equal Z.of_nat) in Hl. rewrite !Nat2Z.inj_mul, pow_nat in Hl. change (Z.of_nat 2) with 2%Z in Hl. rewrite Hl. f_equal; [lia|]. f_equal. lia.
  - rewrite (tree_mirror (Z.to_nat T - 1) (0, 0) 0). unfold mirror. cbn [fst snd]. rewrite Ropp_0. apply Permutation_refl.
Qed.
Print Assumptions C113_tree.

Theorem C113_plant : forall (V BA BN I : Type) (W : env Z V string BA BN) T fuel, (forall i, e_lab W i = Z.of_nat i) -> (1 <= T)%Z -> (Z.to_nat T < fuel)%nat ->
  exists t', lsys_script (I := I) W fuel (plant T) = Ok (t', Ok tt) /\ t_stack t' = [] /\ t_trajectory t' = plant_lines (Z.to_nat T - 1) (0, 0) 25 /\
    (2 * Z.of_nat (length (t_trajectory t')) = 3 * (4 ^ (T - 1) - 2 ^ (T - 1)))%Z.
Proof.
  intros V BA BN I W T fuel Hlab HT Hf. destruct (plant_script (I := I) W Hlab T fuel HT Hf) as (t' & E & Hs & Ht). exists t'. split; [assumption|]. split; [assumption|]. split; [assumption|]. rewrite Ht.
  pose proof (plant_length (Z.to_nat T - 1) (0, 0) 25) as Hl. apply (f_equal Z.of_nat) in Hl. rewrite Nat2Z.inj_add, !Nat2Z.inj_mul, !pow_nat in Hl. change (Z.of_nat 2) with 2%Z in Hl. change (Z.of_nat 3) with 3%Z in Hl. change (Z.of_nat 4) with 4%Z in Hl.
  replace (Z.of_nat (Z.to_nat T - 1)) with (T - 1)%Z in Hl by lia. lia.
Qed.
Print Assumptions C113_plant.

(** ** Examples *)
Open Scope Z_scope.
Definition shown {V BA BN} (W : env Z V string BA BN) (d : lsystem) : res (list string) := tr <- lsys_trajectory (I := unit) W 20 d ;; to_string W tr.
(** the hypotheses hold for the demos; the first words *)
Example C113_hypotheses : (forall i, e_lab Ws i = Z.of_nat i) /\ context_free (tree tree_timesteps) /\ complete (tree tree_timesteps) (letters "10[]") /\ 1 <= tree_timesteps /\
  shown Ws (tree 3) = Ok ["0"; "1[0]0"; "11[1[0]0]1[0]0"] /\ shown Ws (koch 2) = Ok ["F"; "F+F-F-F+F"] /\ shown Ws (plant 2) = Ok ["X"; "F+[[X]-X]-F[-FX]+X"].
Proof. split; [reflexivity|]. split; [apply tree_ok|]. split; [apply tree_ok|]. split; [unfold tree_timesteps; lia|]. repeat split; vm_compute; reflexivity. Qed.
(** a letter without rule; an erased word *)
Definition gap : lsystem := mkLsys [("A", "AB")] [] "A" 3 0%R [].
Definition erasing : lsystem := mkLsys [("A", "")] [] "A" 2 0%R [].
Example C113_missing_case : context_free gap /\ In "B"%char (generation (succ_word gap) 1 (letters "A")) /\ successor gap "B" = None /\
  match lsys_script (I := unit) Ws 20 gap with Err KeyError => True | _ => False end /\
  context_free erasing /\ complete erasing (letters "A") /\ match lsys_script (I := unit) Ws 20 erasing with Err TypeError => True | _ => False end.
Proof. split; [contextfree|]. split; [vm_compute; tauto|]. split; [vm_compute; reflexivity|]. split; [vm_compute; exact Logic.I|]. split; [contextfree|]. split; [alphabet|]. vm_compute. exact Logic.I. Qed.
