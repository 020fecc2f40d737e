(** * Lemmas about what a Hopfield net recalls *)
From Verif Require Import Py PyFacts ListFacts HopfieldSpec HopfieldProofs HopfieldProofs2 HopMemSpec.
Open Scope list_scope.
Open Scope Z_scope.

Lemma bip_comp n v i : bipolar v -> Z.of_nat (length v) = n -> 0 <= i < n -> at0 v i = 1 \/ at0 v i = -1.
Proof. intros Hb Hl Hi. unfold bipolar in Hb. rewrite Forall_forall in Hb. apply Hb. apply nth_In. lia. Qed.
Lemma sum_mono n f g : (forall i, 0 <= i < n -> f i <= g i) -> sum_upto n f <= sum_upto n g.
Proof.
  intros Hle. unfold sum_upto. assert (Hin : forall i, In i (zrange 0 n) -> f i <= g i) by (intros i Hi; apply Hle; apply in_zrange in Hi; lia). clear Hle.
  induction (zrange 0 n) as [|i l IH]; [cbn; lia|]. cbn [map]. rewrite !zsum_cons. pose proof (Hin i (or_introl eq_refl)). specialize (IH (fun j Hj => Hin j (or_intror Hj))). lia.
Qed.

Definition sign_of (n : Z) (w : Z -> Z -> Z) (s : Z -> Z) (c : Z) : Z := if 0 <=? field n w s c then 1 else -1.

Section Recall.
  Variables (n : Z) (w : Z -> Z -> Z) (p v0 : list Z).
  Hypothesis Hsym : forall i j, w i j = w j i.
  Hypothesis Hp : bipolar p.
  Hypothesis Hpl : Z.of_nat (length p) = n.
  Hypothesis Hv : bipolar v0.
  Hypothesis Hvl : Z.of_nat (length v0) = n.

  Lemma pull_field s i : 0 <= i < n -> at0 p i * field n w s i = sum_upto n (fun j => pull w p i j * (at0 p j * s j)).
  Proof.
    intros Hi. unfold field. rewrite <- sum_mul. apply sum_ext. intros j Hj. unfold pull. rewrite (Hsym j i).
    destruct (bip_comp n p j Hp Hpl Hj) as [E|E]; rewrite E; ring.
  Qed.

  Lemma slack_low s i : 0 <= i < n -> (forall j, 0 <= j < n -> s j = at0 p j \/ s j = at0 v0 j) -> slack n w p v0 i <= at0 p i * field n w s i.
  Proof.
    intros Hi Hs. rewrite pull_field by exact Hi. unfold slack.
    set (f := fun j => if at0 p j =? at0 v0 j then 0 else Z.max 0 (pull w p i j)).
    assert (E : sum_upto n (pull w p i) - 2 * sum_upto n f = sum_upto n (fun j => pull w p i j + (-1) * (2 * f j))) by (rewrite sum_plus, !sum_mul; lia).
    rewrite E. apply sum_mono. intros j Hj. unfold f.
    destruct (bip_comp n p j Hp Hpl Hj) as [Ep|Ep], (bip_comp n v0 j Hv Hvl Hj) as [Ev|Ev], (Hs j Hj) as [Es|Es]; rewrite Es, ?Ev, ?Ep; cbn [Z.eqb Pos.eqb]; lia.
  Qed.

  Lemma secure_sign s i : secure n w p v0 -> 0 <= i < n -> (forall j, 0 <= j < n -> s j = at0 p j \/ s j = at0 v0 j) -> sign_of n w s i = at0 p i.
  Proof.
    intros Hsec Hi Hs. pose proof (slack_low s i Hi Hs) as Hlow. unfold sign_of. destruct (bip_comp n p i Hp Hpl Hi) as [E|E], (Z.leb_spec 0 (field n w s i)) as [Hf|Hf], (Hsec i Hi) as [H|[H H']]; lia.
  Qed.

  (** ** the state after t steps *)
  Lemma recalled_S turns t i : recalled turns p v0 (S t) i = if turns t =? i then at0 p i else recalled turns p v0 t i.
  Proof. unfold recalled. rewrite seq_S, existsb_app. cbn [existsb Nat.add]. rewrite orb_false_r. destruct (existsb _ _); destruct (turns t =? i); reflexivity. Qed.
  Lemma recalled_is turns t i : recalled turns p v0 t i = at0 p i \/ recalled turns p v0 t i = at0 v0 i.
  Proof. unfold recalled. destruct (existsb _ _); auto. Qed.

  Lemma turns_recalled turns who : secure n w p v0 -> (forall k, who k = Some (turns k) /\ 0 <= turns k < n) -> forall t i, 0 <= i < n -> by_turns (sign_of n w) who t (at0 v0) i = recalled turns p v0 t i.
  Proof.
    intros Hsec Hwho. induction t as [|t IH]; intros i Hi; [reflexivity|]. cbn [by_turns]. destruct (Hwho t) as [-> Ht]. rewrite recalled_S, Z.eqb_sym. change (i =? turns t) with (Z.eqb i (turns t)).
    destruct (eqd i (turns t)) as [->|Hne].
    - rewrite Z.eqb_refl. apply secure_sign; [exact Hsec|exact Ht|]. intros j Hj. rewrite IH by exact Hj. apply recalled_is.
    - destruct (Z.eqb_spec i (turns t)); [contradiction|]. apply IH, Hi.
  Qed.

  (** ** the condition cannot be weakened *)
  Lemma slack_reached i : 0 <= i < n ->
    at0 p i * field n w (fun j => if at0 p j =? at0 v0 j then at0 p j else if 0 <? pull w p i j then at0 v0 j else at0 p j) i = slack n w p v0 i.
  Proof.
    intros Hi. rewrite pull_field by exact Hi. unfold slack.
    set (f := fun j => if at0 p j =? at0 v0 j then 0 else Z.max 0 (pull w p i j)).
    assert (E : sum_upto n (pull w p i) - 2 * sum_upto n f = sum_upto n (fun j => pull w p i j + (-1) * (2 * f j))) by (rewrite sum_plus, !sum_mul; lia).
    rewrite E. apply sum_ext. intros j Hj. unfold f.
    destruct (bip_comp n p j Hp Hpl Hj) as [Ep|Ep], (bip_comp n v0 j Hv Hvl Hj) as [Ev|Ev], (Z.ltb_spec 0 (pull w p i j)); rewrite ?Ev, ?Ep; cbn [Z.eqb Pos.eqb]; lia.
  Qed.
End Recall.

(** ** orthogonal enough patterns *)
Lemma dot_bound q i j n : bipolar q -> Z.of_nat (length q) = n -> 0 <= i < n -> 0 <= j < n -> Z.abs (at0 q i * at0 q j) = 1.
Proof. intros Hq Hl Hi Hj. destruct (bip_comp n q i Hq Hl Hi) as [->| ->], (bip_comp n q j Hq Hl Hj) as [->| ->]; reflexivity. Qed.

Lemma hebb_bound n P i j : Forall (fun q => bipolar q /\ Z.of_nat (length q) = n) P -> 0 <= i < n -> 0 <= j < n -> Z.abs (hebb P i j) <= Z.of_nat (length P).
Proof.
  intros HP Hi Hj. unfold hebb. destruct (i =? j); [cbn; lia|]. induction HP as [|q P [Hq Hl] HP IH]; [cbn; lia|]. cbn [map length]. rewrite zsum_cons. pose proof (dot_bound q i j n Hq Hl Hi Hj). lia.
Qed.

Lemma pull_sum n P p i : 0 <= i < n -> bipolar p -> Z.of_nat (length p) = n -> Forall (fun q => bipolar q /\ Z.of_nat (length q) = n) P ->
  sum_upto n (pull (hebb P) p i) = zsum (map (fun q => at0 p i * at0 q i * dot n p q) P) - Z.of_nat (length P).
Proof.
  intros Hi Hp Hl HP.
  assert (E : forall P, Forall (fun q => bipolar q /\ Z.of_nat (length q) = n) P ->
    sum_upto n (fun j => at0 p i * at0 p j * zsum (map (fun q => at0 q i * at0 q j) P)) = zsum (map (fun q => at0 p i * at0 q i * dot n p q) P)).
  { clear HP P. induction P as [|q P IH]; intros HP.
    - cbn [map]. rewrite (sum_ext n _ (fun j => 0 * 0)) by (intros; change (zsum []) with 0; lia). rewrite sum_mul. reflexivity.
    - inversion_clear HP as [|? ? _ HP']. cbn [map]. rewrite zsum_cons, <- IH by exact HP'. unfold dot. rewrite <- sum_mul, <- sum_plus. apply sum_ext. intros j _. rewrite zsum_cons. ring. }
  rewrite <- E by exact HP.
  assert (Ed : zsum (map (fun q => at0 q i * at0 q i) P) = Z.of_nat (length P)).
  { clear E. induction HP as [|q P [Hq Hlq] HP IH]; [reflexivity|]. cbn [map length]. rewrite zsum_cons, IH. destruct (bip_comp n q i Hq Hlq Hi) as [->| ->]; lia. }
  rewrite <- Ed at 1. transitivity (sum_upto n (fun j => at0 p i * at0 p j * zsum (map (fun q => at0 q i * at0 q j) P) + (-1) * (if j =? i then zsum (map (fun q => at0 q i * at0 q i) P) else 0))).
  - apply sum_ext. intros j Hj. unfold pull, hebb. rewrite (Z.eqb_sym j i). destruct (Z.eqb_spec i j) as [<-|Hne]; [|lia]. destruct (bip_comp n p i Hp Hl Hi) as [->| ->]; lia.
  - rewrite sum_plus, sum_mul, (sum_delta n (fun _ => zsum (map (fun q => at0 q i * at0 q i) P)) i Hi). lia.
Qed.

Lemma cross_talk n p i P : 0 <= i < n -> bipolar p -> Z.of_nat (length p) = n -> Forall (fun q => bipolar q /\ Z.of_nat (length q) = n) P ->
  - zsum (map (fun q => Z.abs (dot n p q)) P) <= zsum (map (fun q => at0 p i * at0 q i * dot n p q) P).
Proof.
  intros Hi Hp Hl HP. induction HP as [|q P [Hq Hlq] HP IH]; [cbn; lia|]. cbn [map]. rewrite !zsum_cons.
  assert (- Z.abs (dot n p q) <= at0 p i * at0 q i * dot n p q) by (destruct (bip_comp n p i Hp Hl Hi) as [->| ->], (bip_comp n q i Hq Hlq Hi) as [->| ->]; lia). lia.
Qed.

Lemma dot_self n p : bipolar p -> Z.of_nat (length p) = n -> dot n p p = n.
Proof.
  intros Hp Hl. unfold dot. rewrite (sum_ext n _ (fun _ => 1)); [apply sum_const; lia|]. intros i Hi. destruct (bip_comp n p i Hp Hl Hi) as [->| ->]; reflexivity.
Qed.

Lemma zsum_app l l' : zsum (l ++ l') = zsum l + zsum l'.
Proof. induction l as [|x l IH]; [reflexivity|]. cbn [app]. rewrite !zsum_cons, IH. lia. Qed.

Lemma overlap_slack n P1 P2 p v0 i : let P := P1 ++ p :: P2 in Forall (fun q => bipolar q /\ Z.of_nat (length q) = n) P -> 0 <= i < n ->
  n - zsum (map (fun q => Z.abs (dot n p q)) (P1 ++ P2)) - Z.of_nat (length P) - 2 * Z.of_nat (length P) * hamming n p v0 <= slack n (hebb P) p v0 i /\
  n - zsum (map (fun q => Z.abs (dot n p q)) (P1 ++ P2)) - Z.of_nat (length P) <= sum_upto n (pull (hebb P) p i).
Proof.
  intros P HP Hi. assert (Hp : bipolar p /\ Z.of_nat (length p) = n) by (rewrite Forall_forall in HP; apply HP, in_or_app; right; left; reflexivity). destruct Hp as [Hp Hl].
  assert (H12 : Forall (fun q => bipolar q /\ Z.of_nat (length q) = n) (P1 ++ P2)).
  { rewrite Forall_forall in HP |- *. intros q Hq. apply HP. apply in_app_or in Hq. apply in_or_app. destruct Hq; [left|right; right]; assumption. }
  assert (Hs : n - zsum (map (fun q => Z.abs (dot n p q)) (P1 ++ P2)) - Z.of_nat (length P) <= sum_upto n (pull (hebb P) p i)).
  { rewrite (pull_sum n P p i Hi Hp Hl HP). pose proof (cross_talk n p i (P1 ++ P2) Hi Hp Hl H12) as Hc.
    assert (E : zsum (map (fun q => at0 p i * at0 q i * dot n p q) P) = zsum (map (fun q => at0 p i * at0 q i * dot n p q) (P1 ++ P2)) + at0 p i * at0 p i * dot n p p).
    { unfold P. rewrite !map_app. cbn [map]. rewrite !zsum_app, zsum_cons. lia. }
    rewrite E, dot_self by assumption. assert (Hn : at0 p i * at0 p i * n = n) by (destruct (bip_comp n p i Hp Hl Hi) as [->| ->]; lia). lia. }
  split; [|exact Hs]. unfold slack. assert (Hw : sum_upto n (fun j => if at0 p j =? at0 v0 j then 0 else Z.max 0 (pull (hebb P) p i j)) <= Z.of_nat (length P) * hamming n p v0).
  { unfold hamming. rewrite <- sum_mul. apply sum_mono. intros j Hj. destruct (at0 p j =? at0 v0 j); [lia|]. pose proof (hebb_bound n P i j HP Hi Hj) as Hb. unfold pull.
    destruct (bip_comp n p i Hp Hl Hi) as [->| ->], (bip_comp n p j Hp Hl Hj) as [->| ->]; lia. }
  nia.
Qed.
