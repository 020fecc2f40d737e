(** One stored pattern: recall *)
From Verif Require Import Py PyFacts ListFacts HopfieldSpec HopfieldProofs HopfieldProofs2.
Open Scope list_scope.
Open Scope Z_scope.

Section Recall.
  Variables (m : Z) (p : list Z).
  Hypothesis Hlen : Z.of_nat (length p) = m.
  Hypothesis Hbip : bipolar p.

  Lemma bip_at v i : bipolar v -> Z.of_nat (length v) = m -> 0 <= i < m -> at0 v i = 1 \/ at0 v i = -1.
  Proof. intros Hb Hl Hi. unfold bipolar in Hb. rewrite Forall_forall in Hb. apply Hb. apply nth_In. lia. Qed.

  Lemma overlap_hamming v : bipolar v -> Z.of_nat (length v) = m -> sum_upto m (fun i => at0 p i * at0 v i) = m - 2 * hamming m p v.
  Proof.
    intros Hb Hl. unfold hamming. rewrite (sum_ext m _ (fun i => 1 + (-2) * (if at0 p i =? at0 v i then 0 else 1))).
    - rewrite sum_plus, sum_mul, sum_const by lia. lia.
    - intros i Hi. destruct (bip_at p i Hbip Hlen Hi) as [-> | ->], (bip_at v i Hb Hl Hi) as [-> | ->]; reflexivity.
  Qed.

  Lemma field_single v c : bipolar v -> Z.of_nat (length v) = m -> 0 <= c < m -> field m (hebb [p]) (at0 v) c = at0 p c * (m - 2 * hamming m p v - at0 p c * at0 v c).
  Proof.
    intros Hb Hl Hc. rewrite <- (overlap_hamming v Hb Hl). unfold field.
    rewrite (sum_ext m _ (fun j => at0 p c * (at0 p j * at0 v j) + (if j =? c then - (at0 p c * (at0 p j * at0 v j)) else 0))).
    - rewrite sum_plus, sum_mul, (sum_delta m (fun j => - (at0 p c * (at0 p j * at0 v j))) c Hc). lia.
    - intros j Hj. unfold hebb. cbn [map zsum fold_right]. destruct (Z.eqb_spec j c) as [->|]; lia.
  Qed.

  Lemma recall_step v v' : bipolar v -> Z.of_nat (length v) = m -> 2 * hamming m p v <= m - 2 -> updates m (hebb [p]) v v' ->
    exists c, 0 <= c < m /\ at0 v' c = at0 p c /\ forall i, 0 <= i < m -> i <> c -> at0 v' i = at0 v i.
  Proof.
    intros Hb Hl Hh (c & Hc & Hw & Ec). exists c. split; [assumption|]. split; [|assumption]. rewrite Ec, field_single by assumption.
    destruct (bip_at p c Hbip Hlen Hc) as [-> | ->], (bip_at v c Hb Hl Hc) as [-> | ->]; match goal with |- context [0 <=? ?e] => destruct (Z.leb_spec 0 e) end; lia.
  Qed.

  Lemma sum_le f g : (forall i, 0 <= i < m -> f i <= g i) -> sum_upto m f <= sum_upto m g.
  Proof.
    intros Hfg. unfold sum_upto. assert (Hl : forall i, In i (zrange 0 m) -> f i <= g i) by (intros i Hi; apply in_zrange in Hi; apply Hfg; lia). induction (zrange 0 m) as [|i l IH]; [cbn; lia|].
    cbn [map]. rewrite !zsum_cons. specialize (Hl i (or_introl eq_refl)) as Hi. specialize (IH (fun j Hj => Hl j (or_intror Hj))). lia.
  Qed.

  Lemma recall_hamming v v' c : 0 <= c < m -> at0 v' c = at0 p c -> (forall i, 0 <= i < m -> i <> c -> at0 v' i = at0 v i) -> hamming m p v' <= hamming m p v.
  Proof.
    intros Hc Ec Hw. unfold hamming. apply sum_le. intros i Hi. destruct (Z.eq_dec i c) as [->|Hne].
    - rewrite Ec, Z.eqb_refl. destruct (at0 p c =? at0 v c); lia.
    - rewrite Hw by assumption. lia.
  Qed.
End Recall.
