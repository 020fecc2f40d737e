(** Proofs about Hopfield.v *)
From Verif Require Import Py PyFacts ListFacts Network NetworkSpec NetworkProofs NetworkProofs2 Topology TopologySpec TopologyProofs TopologyProofs3 Evolve EvolveSpec EvolveProofs EvolveStatic Async AsyncProofs PropAsync HopfieldSpec Hopfield.
Open Scope string_scope.
Open Scope list_scope.
Open Scope Z_scope.

(** ** matrices as functions *)
Definition mrep {X} (m : Z) (M : list (list X)) (F : Z -> Z -> X) : Prop := is_square m M /\ forall i j, 0 <= i < m -> 0 <= j < m -> at_ M i j = Some (F i j).

Lemma mrep_ext {X} m (M : list (list X)) F G : mrep m M F -> (forall i j, 0 <= i < m -> 0 <= j < m -> F i j = G i j) -> mrep m M G.
Proof. intros [H1 H2] E. split; [assumption|]. intros i j Hi Hj. rewrite <- E by assumption. auto. Qed.

Lemma mrep_zero m : 0 <= m -> mrep m (zero_matrix m) (fun _ _ => 0).
Proof.
  intros Hk. unfold zero_matrix. split.
  - split; [rewrite repeat_length; lia|]. intros row Hr. apply repeat_spec in Hr. subst. rewrite repeat_length. lia.
  - intros i j Hi Hj. unfold at_. rewrite (nth_error_nth' _ (repeat 0 (Z.to_nat m))) by (rewrite repeat_length; lia).
    rewrite nth_repeat. rewrite (nth_error_nth' _ 0) by (rewrite repeat_length; lia). rewrite nth_repeat. reflexivity.
Qed.

Lemma py_nth_in {X} (l : list X) i : 0 <= i < Z.of_nat (length l) -> py_nth l i = nth_error l (Z.to_nat i).
Proof. intros Hi. unfold py_nth, py_index. destruct (Z.leb_spec 0 i); [|lia]. destruct (Z.ltb_spec i (Z.of_nat (length l))); [|lia]. reflexivity. Qed.
Lemma py_nth_out {X} (l : list X) i : Z.of_nat (length l) <= i -> py_nth l i = None.
Proof. intros Hi. unfold py_nth, py_index. destruct (Z.leb_spec 0 i); [|lia]. destruct (Z.ltb_spec i (Z.of_nat (length l))); [lia|]. cbn. destruct (Z.ltb_spec i 0); [lia|]. rewrite andb_false_r. reflexivity. Qed.

Lemma mrep_get {X} m (M : list (list X)) F i j : mrep m M F -> 0 <= i < m -> 0 <= j < m -> mat_get M i j = Ok (F i j).
Proof.
  intros [[Hl Hr] He] Hi Hj. specialize (He i j Hi Hj). unfold at_ in He. unfold mat_get. rewrite py_nth_in by lia. destruct (nth_error M (Z.to_nat i)) as [row|] eqn:Er; [|discriminate]. cbn [of_opt rbind].
  rewrite py_nth_in by (rewrite (Hr row) by (eapply nth_error_In; eassumption); lia). rewrite He. reflexivity.
Qed.

Lemma mrep_set {X} m (M : list (list X)) F i j x : mrep m M F -> 0 <= i < m -> 0 <= j < m ->
  exists M', mat_set M i j x = Ok M' /\ mrep m M' (fun p q => if (p =? i) && (q =? j) then x else F p q).
Proof.
  intros [[Hl Hr] He] Hi Hj. unfold mat_set, py_index. rewrite Hl. destruct (Z.leb_spec 0 i); [|lia]. destruct (Z.ltb_spec i m); [|lia]. cbn [andb].
  destruct (nth_error M (Z.to_nat i)) as [row|] eqn:Er; [|apply nth_error_None in Er; lia]. assert (Hrow : Z.of_nat (length row) = m) by (apply Hr; eapply nth_error_In; eassumption). rewrite Hrow.
  destruct (Z.leb_spec 0 j); [|lia]. destruct (Z.ltb_spec j m); [|lia]. cbn [andb]. eexists. split; [reflexivity|]. split; [split|].
  - rewrite length_upd_nth. assumption.
  - intros row' Hin. apply In_nth_error in Hin. destruct Hin as [p Hp]. rewrite nth_error_upd_nth in Hp. destruct (Nat.eq_dec p _) as [->|Hne].
    + rewrite Er in Hp. cbn in Hp. injection Hp as <-. rewrite length_upd_nth. assumption.
    + apply Hr. eapply nth_error_In; eassumption.
  - intros p q Hp Hq. specialize (He p q Hp Hq). unfold at_ in *. rewrite nth_error_upd_nth. destruct (Z.eqb_spec p i) as [->|Hne].
    + destruct (Nat.eq_dec (Z.to_nat i) (Z.to_nat i)); [|congruence]. rewrite Er in *. cbn [option_map]. rewrite nth_error_upd_nth. destruct (Z.eqb_spec q j) as [->|Hne2]; cbn [andb].
      * destruct (Nat.eq_dec (Z.to_nat j) (Z.to_nat j)); [|congruence]. rewrite He. reflexivity.
      * destruct (Nat.eq_dec (Z.to_nat q) (Z.to_nat j)); [lia|]. assumption.
    + cbn [andb]. destruct (Nat.eq_dec (Z.to_nat p) (Z.to_nat i)); [lia|]. assumption.
Qed.

Lemma mat_set_out {X} m (M : list (list X)) F i j x : mrep m M F -> 0 <= i < m -> m <= j -> mat_set M i j x = Err IndexError.
Proof.
  intros [[Hl Hr] He] Hi Hj. unfold mat_set, py_index. rewrite Hl. destruct (Z.leb_spec 0 i); [|lia]. destruct (Z.ltb_spec i m); [|lia]. cbn [andb].
  destruct (nth_error M (Z.to_nat i)) as [row|] eqn:Er; [|reflexivity]. assert (Hrow : Z.of_nat (length row) = m) by (apply Hr; eapply nth_error_In; eassumption). rewrite Hrow.
  destruct (Z.leb_spec 0 j); [|lia]. destruct (Z.ltb_spec j m); [lia|]. cbn [andb]. destruct (Z.ltb_spec j 0); [lia|]. rewrite andb_false_r. reflexivity.
Qed.

(** ** training *)
Section Train.
  Variables (m : Z) (p : list Z).
  Notation n := (Z.of_nat (length p)).
  Notation inner i := (fun M j => if i =? j then mat_set M i j 0 else
        pi <- of_opt IndexError (py_nth p i) ;; pj <- of_opt IndexError (py_nth p j) ;; x <- mat_get M i j ;; mat_set M i j (x + pi * pj)).
  Definition stepped (F : Z -> Z -> Z) (i j : Z) : Z := if i =? j then 0 else F i j + at0 p i * at0 p j.

  Lemma py_nth_at0 i : 0 <= i < n -> py_nth p i = Some (at0 p i).
  Proof. intros Hi. rewrite py_nth_in by assumption. unfold at0. apply nth_error_nth'. lia. Qed.

  Lemma inner_ok i M F j : mrep m M F -> 0 <= i < m -> 0 <= i < n -> 0 <= j < m -> 0 <= j < n -> exists M', inner i M j = Ok M' /\ mrep m M' (fun a b => if (a =? i) && (b =? j) then stepped F a b else F a b).
  Proof.
    intros Hm Hi Hin Hj Hjn. unfold stepped. destruct (Z.eqb_spec i j) as [E|Hne].
    - subst j. destruct (mrep_set m M F i i 0 Hm Hi Hj) as (M' & E & Hm'). exists M'. split; [assumption|]. eapply mrep_ext; [exact Hm'|]. intros a b _ _. cbn beta. destruct (Z.eqb_spec a i) as [->|]; [|reflexivity]. destruct (Z.eqb_spec b i) as [->|]; [|reflexivity]. cbn [andb]. rewrite Z.eqb_refl. reflexivity.
    - rewrite !py_nth_at0 by assumption. cbn [of_opt rbind]. rewrite (mrep_get m M F i j Hm Hi Hj). cbn [rbind]. destruct (mrep_set m M F i j (F i j + at0 p i * at0 p j) Hm Hi Hj) as (M' & E & Hm'). exists M'. split; [assumption|].
      eapply mrep_ext; [exact Hm'|]. intros a b _ _. cbn beta. destruct (Z.eqb_spec a i) as [->|]; [|reflexivity]. destruct (Z.eqb_spec b j) as [->|]; [|reflexivity]. cbn [andb]. destruct (Z.eqb_spec i j); [congruence|reflexivity].
  Qed.

  Lemma inner_loop i : 0 <= i < m -> 0 <= i < n -> n <= m -> forall l M F, NoDup l -> (forall j, In j l -> 0 <= j < n) -> mrep m M F ->
    exists M', rfold (inner i) l M = Ok M' /\ mrep m M' (fun a b => if (a =? i) && (if in_dec Z.eq_dec b l then true else false) then stepped F a b else F a b).
  Proof.
    intros Hi Hin Hle. induction l as [|j l IH]; intros M F Hnd Hl Hm.
    - exists M. split; [reflexivity|]. eapply mrep_ext; [exact Hm|]. intros. cbn. rewrite andb_false_r. reflexivity.
    - inversion Hnd as [|x y Hj Hnd']. subst. cbn [rfold]. specialize (Hl j (or_introl eq_refl)) as Hjn. destruct (inner_ok i M F j Hm Hi Hin ltac:(lia) Hjn) as (M1 & E1 & Hm1). rewrite E1. cbn [rbind].
      destruct (IH M1 _ Hnd' (fun k Hk => Hl k (or_intror Hk)) Hm1) as (M2 & E2 & Hm2). exists M2. split; [assumption|]. eapply mrep_ext; [exact Hm2|]. intros a b _ _. cbn beta.
      destruct (Z.eqb_spec a i) as [->|]; [|reflexivity]. cbn [andb]. destruct (in_dec Z.eq_dec b l) as [Hb|Hb], (in_dec Z.eq_dec b (j :: l)) as [Hb'|Hb']; cbn [andb].
      + unfold stepped. destruct (Z.eqb_spec b j) as [->|]; [contradiction|]. rewrite ?andb_false_r. reflexivity.
      + exfalso. apply Hb'. right. assumption.
      + destruct Hb' as [->|Hb']; [|contradiction]. rewrite Z.eqb_refl. reflexivity.
      + destruct (Z.eqb_spec b j) as [->|]; [exfalso; apply Hb'; left; reflexivity|]. reflexivity.
  Qed.

  Lemma outer_loop : n <= m -> forall l M F, NoDup l -> (forall i, In i l -> 0 <= i < n) -> mrep m M F ->
    exists M', rfold (fun M i => rfold (inner i) (zrange 0 n) M) l M = Ok M' /\ mrep m M' (fun a b => if (if in_dec Z.eq_dec a l then true else false) && (b <? n) then stepped F a b else F a b).
  Proof.
    intros Hle. induction l as [|i l IH]; intros M F Hnd Hl Hm.
    - exists M. split; [reflexivity|]. assumption.
    - inversion Hnd as [|x y Hj Hnd']. subst. specialize (Hl i (or_introl eq_refl)) as Hin.
      destruct (inner_loop i ltac:(lia) Hin Hle (zrange 0 n) M F (NoDup_zrange _ _) ltac:(intros j Hjj; apply in_zrange in Hjj; lia) Hm) as (M1 & E1 & Hm1).
      destruct (IH M1 _ Hnd' (fun k Hk => Hl k (or_intror Hk)) Hm1) as (M2 & E2 & Hm2). exists M2. split; [cbn [rfold]; rewrite E1; exact E2|]. eapply mrep_ext; [exact Hm2|]. intros a b _ Hb. cbn beta.
      assert (Eb : (if in_dec Z.eq_dec b (zrange 0 n) then true else false) = (b <? n)).
      { destruct (in_dec Z.eq_dec b (zrange 0 n)) as [Hx|Hx], (Z.ltb_spec b n) as [Hy|Hy]; try reflexivity; [apply in_zrange in Hx; lia|exfalso; apply Hx, in_zrange; lia]. }
      rewrite Eb. destruct (Z.ltb_spec b n); rewrite ?andb_true_r, ?andb_false_r; [|reflexivity].
      destruct (in_dec Z.eq_dec a l) as [Ha|Ha], (in_dec Z.eq_dec a (i :: l)) as [Ha'|Ha']; cbn [andb].
      + unfold stepped. destruct (Z.eqb_spec a i) as [->|]; [contradiction|]. reflexivity.
      + exfalso. apply Ha'. right. assumption.
      + destruct Ha' as [->|Ha']; [|contradiction]. rewrite Z.eqb_refl. reflexivity.
      + destruct (Z.eqb_spec a i) as [->|]; [exfalso; apply Ha'; left; reflexivity|]. reflexivity.
  Qed.

  Lemma at0_out i : n <= i -> at0 p i = 0.
  Proof. intros Hi. unfold at0. apply nth_overflow. lia. Qed.

  Lemma learn_ok M F : n <= m -> mrep m M F -> (forall i, 0 <= i < m -> F i i = 0) -> exists M', learn M p = Ok M' /\ mrep m M' (fun i j => if i =? j then 0 else F i j + at0 p i * at0 p j).
  Proof.
    intros Hle Hm Hd. destruct (outer_loop Hle (zrange 0 n) M F (NoDup_zrange _ _) ltac:(intros j Hjj; apply in_zrange in Hjj; lia) Hm) as (M' & E & Hm'). exists M'. split; [exact E|]. eapply mrep_ext; [exact Hm'|].
    intros a b Ha Hb. cbn beta. unfold stepped. destruct (in_dec Z.eq_dec a (zrange 0 n)) as [Hx|Hx].
    - destruct (Z.ltb_spec b n); cbn [andb]; [reflexivity|]. rewrite (at0_out b) by lia. rewrite Z.mul_0_r, Z.add_0_r. destruct (Z.eqb_spec a b) as [<-|]; [auto|reflexivity].
    - cbn [andb]. rewrite (at0_out a) by (destruct (Z.le_gt_cases n a); [assumption|exfalso; apply Hx, in_zrange; lia]). cbn [Z.mul]. rewrite Z.add_0_r. destruct (Z.eqb_spec a b) as [<-|]; [auto|reflexivity].
  Qed.

  Lemma learn_too_long M F : 0 < m -> m < n -> mrep m M F -> learn M p = Err IndexError.
  Proof.
    intros Hm0 Hlt Hm.
    change (learn M p) with (rfold (fun M i => rfold (inner i) (zrange 0 n) M) (zrange 0 n) M).
    assert (Hg : forall M F, mrep m M F -> rfold (inner 0) (zrange 0 n) M = Err IndexError).
    { clear M F Hm. intros M F Hm. rewrite (zrange_split 0 m n) by lia.
      assert (Happ : forall l l' M, rfold (inner 0) (l ++ l') M = (M1 <- rfold (inner 0) l M ;; rfold (inner 0) l' M1)) by (intros l l' M0; apply rfold_app). rewrite Happ.
      assert (Hin : exists M1 F1, rfold (inner 0) (zrange 0 m) M = Ok M1 /\ mrep m M1 F1).
      { assert (Hg : forall l M F, (forall j, In j l -> 0 <= j < m) -> mrep m M F -> exists M1 F1, rfold (inner 0) l M = Ok M1 /\ mrep m M1 F1).
        { induction l as [|j l IH]; intros M0 F0 Hl Hm0'; [exists M0, F0; auto|]. destruct (inner_ok 0 M0 F0 j Hm0' ltac:(lia) ltac:(lia) (Hl j (or_introl eq_refl))) as (M1 & E1 & Hm1); [specialize (Hl j (or_introl eq_refl)); lia|].
          cbn [rfold]. rewrite E1. cbn [rbind]. eapply IH; [intros k Hk; apply Hl; right; assumption|exact Hm1]. }
        apply (Hg _ M F); [intros j Hj; apply in_zrange in Hj; lia|assumption]. }
      destruct Hin as (M1 & F1 & -> & Hm1). cbn [rbind]. rewrite (zrange_cons m n) by lia. cbn [rfold]. destruct (Z.eqb_spec 0 m); [lia|]. rewrite !py_nth_at0 by lia. cbn [of_opt rbind].
      unfold mat_get. destruct Hm1 as [[Hl1 Hr1] He1]. rewrite py_nth_in by lia. destruct (nth_error M1 (Z.to_nat 0)) as [row|] eqn:Er; [|apply nth_error_None in Er; cbn in Er; lia]. cbn [of_opt rbind].
      rewrite py_nth_out; [reflexivity|]. rewrite (Hr1 row) by (eapply nth_error_In; eassumption). lia. }
    specialize (Hg M F Hm). set (body := fun M i => rfold (inner i) (zrange 0 n) M). change (body M 0 = Err IndexError) in Hg. clearbody body.
    rewrite (zrange_cons 0 n) by lia. cbn [rfold]. rewrite Hg. reflexivity.
  Qed.
End Train.

Lemma learn_all m : forall P M F, Forall (fun p => Z.of_nat (length p) <= m) P -> mrep m M F -> (forall i, 0 <= i < m -> F i i = 0) ->
  exists M', rfold learn P M = Ok M' /\ mrep m M' (fun i j => if i =? j then 0 else F i j + hebb P i j).
Proof.
  induction P as [|p P IH]; intros M F Hl Hm Hd.
  - exists M. split; [reflexivity|]. eapply mrep_ext; [exact Hm|]. intros i j Hi Hj. unfold hebb. destruct (Z.eqb_spec i j) as [<-|]; [auto|]. cbn. lia.
  - inversion Hl as [|x y Hp Hl']. subst. destruct (learn_ok m p M F Hp Hm Hd) as (M1 & E1 & Hm1). destruct (IH M1 _ Hl' Hm1) as (M2 & E2 & Hm2); [intros i _; cbn beta; rewrite Z.eqb_refl; reflexivity|].
    exists M2. split; [cbn [rfold]; rewrite E1; exact E2|]. eapply mrep_ext; [exact Hm2|]. intros i j _ _. cbn beta. unfold hebb. destruct (Z.eqb_spec i j); [reflexivity|]. cbn [map zsum fold_right]. fold (zsum (map (fun p0 => at0 p0 i * at0 p0 j) P)). lia.
Qed.

Theorem train_ok P p0 : nth_error P 0 = Some p0 -> Forall (fun p => (length p <= length p0)%nat) P ->
  exists M net, train P = Ok (M, net) /\ mrep (Z.of_nat (length p0)) M (hebb P) /\ R net (graph_of (adj_edges nzb M)) /\ net_rot net = None.
Proof.
  intros E0 Hl. destruct P as [|q P]; [discriminate|]. injection E0 as ->. set (m := Z.of_nat (length p0)).
  destruct (learn_all m (p0 :: P) (zero_matrix m) (fun _ _ => 0)) as (M & E & Hm); [eapply Forall_impl; [|exact Hl]; cbn; unfold m; intros; lia|apply mrep_zero; unfold m; lia|reflexivity|].
  destruct (from_adj_R nzb M) as (net & En & HR & Hrot). exists M, net. split; [|split; [|split; assumption]].
  - unfold train. change (py_nth (p0 :: P) 0) with (Some p0). cbn [of_opt rbind]. fold m. rewrite E. cbn [rbind]. rewrite En. reflexivity.
  - eapply mrep_ext; [exact Hm|]. intros i j _ _. cbn beta. unfold hebb. destruct (Z.eqb_spec i j); [reflexivity|]. lia.
Qed.

Lemma hebb_sym P i j : hebb P i j = hebb P j i.
Proof. unfold hebb. rewrite Z.eqb_sym. destruct (j =? i); [reflexivity|]. f_equal. apply map_ext. intros p. lia. Qed.
Lemma hebb_diag P i : hebb P i i = 0.
Proof. unfold hebb. rewrite Z.eqb_refl. reflexivity. Qed.

(** ** sums *)
Lemma zsum_ext {X} (f g : X -> Z) l : (forall x, In x l -> f x = g x) -> zsum (map f l) = zsum (map g l).
Proof. intros E. f_equal. apply map_ext_in. assumption. Qed.
Lemma zsum_cons x l : zsum (x :: l) = x + zsum l. Proof. reflexivity. Qed.
Lemma zsum_plus {X} (f g : X -> Z) l : zsum (map (fun x => f x + g x) l) = zsum (map f l) + zsum (map g l).
Proof. induction l as [|x l IH]; [reflexivity|]. cbn [map]. rewrite !zsum_cons, IH. lia. Qed.
Lemma zsum_mul {X} (f : X -> Z) k l : zsum (map (fun x => k * f x) l) = k * zsum (map f l).
Proof. induction l as [|x l IH]; [cbn; lia|]. cbn [map]. rewrite !zsum_cons, IH. lia. Qed.
Lemma zsum_delta (f : Z -> Z) c l : NoDup l -> In c l -> zsum (map (fun i => if i =? c then f i else 0) l) = f c.
Proof.
  induction l as [|x l IH]; intros Hnd Hin; [destruct Hin|]. inversion Hnd as [|a b Hx Hnd']. subst. cbn [map]. rewrite zsum_cons. destruct (Z.eqb_spec x c) as [->|Hne].
  - assert (E : zsum (map (fun i => if i =? c then f i else 0) l) = 0); [|lia]. clear - Hx. induction l as [|y l IH]; [reflexivity|]. cbn [map]. rewrite zsum_cons, IH by (intros Hc; apply Hx; right; assumption). destruct (Z.eqb_spec y c) as [->|]; [exfalso; apply Hx; left; reflexivity|reflexivity].
  - destruct Hin as [->|Hin]; [congruence|]. rewrite IH by assumption. lia.
Qed.
Lemma zsum_filter {X} (f : X -> Z) p l : (forall x, In x l -> p x = false -> f x = 0) -> zsum (map f (filter p l)) = zsum (map f l).
Proof. induction l as [|x l IH]; intros Hz; [reflexivity|]. cbn [filter map]. rewrite zsum_cons, <- IH by (intros y Hy; apply Hz; right; assumption). destruct (p x) eqn:E; [reflexivity|]. rewrite (Hz x (or_introl eq_refl) E). reflexivity. Qed.

Section Energy.
  Variables (m : Z) (w : Z -> Z -> Z).
  Hypothesis Hsym : forall i j, w i j = w j i.
  Hypothesis Hdiag : forall i, w i i = 0.
  Definition quad (s : Z -> Z) : Z := sum_upto m (fun i => sum_upto m (fun j => w i j * s i * s j)).
  Definition field (s : Z -> Z) (c : Z) : Z := sum_upto m (fun j => w j c * s j).

  Lemma sum_ext f g : (forall i, 0 <= i < m -> f i = g i) -> sum_upto m f = sum_upto m g.
  Proof. intros E. apply zsum_ext. intros i Hi. apply in_zrange in Hi. apply E. lia. Qed.
  Lemma sum_plus f g : sum_upto m (fun i => f i + g i) = sum_upto m f + sum_upto m g. Proof. apply zsum_plus. Qed.
  Lemma sum_mul k f : sum_upto m (fun i => k * f i) = k * sum_upto m f. Proof. apply zsum_mul. Qed.
  Lemma sum_delta f c : 0 <= c < m -> sum_upto m (fun i => if i =? c then f i else 0) = f c.
  Proof. intros Hc. apply zsum_delta; [apply NoDup_zrange|apply in_zrange; lia]. Qed.

  (** changing component [c] by [d] changes the quadratic form by 2 d times the field at c *)
  Lemma quad_change s s' c d : 0 <= c < m -> (forall i, 0 <= i < m -> s' i = s i + (if i =? c then d else 0)) -> quad s' = quad s + 2 * d * field s c.
  Proof.
    intros Hc Hs. unfold quad.
    assert (E1 : forall i, 0 <= i < m -> sum_upto m (fun j => w i j * s' i * s' j) = sum_upto m (fun j => w i j * s i * s j) + (d * (w i c * s i) + (if i =? c then d * field s c else 0))).
    { intros i Hi. rewrite (sum_ext _ (fun j => (w i j * s' i * s j) + (if j =? c then w i j * s' i * d else 0))) by (intros j Hj; rewrite (Hs j Hj); destruct (j =? c); lia).
      rewrite sum_plus, (sum_delta (fun j => w i j * s' i * d) c Hc). rewrite (Hs i Hi). destruct (Z.eqb_spec i c) as [->|Hne].
      - rewrite Hdiag. rewrite (sum_ext _ (fun j => w c j * s c * s j + d * (w j c * s j))) by (intros j Hj; rewrite (Hsym j c); lia). rewrite sum_plus, sum_mul. fold (field s c). lia.
      - rewrite Z.add_0_r. lia. }
    rewrite (sum_ext _ _ E1), sum_plus. f_equal. rewrite sum_plus, sum_mul, (sum_delta (fun _ => d * field s c) c Hc). fold (field s c). lia.
  Qed.

  Lemma quad_ext s s' : (forall i, 0 <= i < m -> s' i = s i) -> quad s' = quad s.
  Proof. intros E. unfold quad. apply sum_ext. intros i Hi. apply sum_ext. intros j Hj. rewrite !E by assumption. reflexivity. Qed.
End Energy.
