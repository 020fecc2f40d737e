(** The film of Langton's loop, and many loops on a torus. *)
From Verif Require Import Py PyFacts ListFacts Ctrbl CtrblSpec CtrblProofs Langton LangtonProofs PropCtrbl LoopSpec LoopFilm LoopRun.
From Verif Require Import HopfieldProofs.
Open Scope string_scope.
Open Scope list_scope.
Open Scope Z_scope.

(** ** the table *)
Definition lt_tab : list (list Z * Z) := match init_rule_table langton_table true with Ok t => t | Err _ => [] end.
Lemma lt_tab_eq : init_rule_table langton_table true = Ok lt_tab.
Proof. unfold lt_tab. destruct C43_langton_table as (_ & _ & _ & t' & E & _). rewrite E. reflexivity. Qed.
Definition lt_tree : tree := Eval vm_compute in build 5 lt_tab.
Lemma lt_tree_eq : lt_tree = build 5 lt_tab.
Proof. vm_compute. reflexivity. Qed.
Opaque lt_tab.
Lemma lt_five : five langton_table. Proof. apply C43_langton_table. Qed.
Lemma lt_consistent : consistent langton_table. Proof. apply C43_langton_table. Qed.
Lemma lt_len : Forall (fun e : list Z * Z => length (fst e) = 5%nat) lt_tab.
Proof.
  apply Forall_forall. intros [k v] Hin. cbn [fst]. assert (Hk : In k (dkeys lt_tab)) by (unfold dkeys; apply (in_map fst lt_tab (k, v)); exact Hin). pose proof (proj1 (table_keys langton_table lt_tab lt_five lt_tab_eq k) Hk) as Hk'; clear Hk. destruct Hk' as (k0 & v0 & _ & Ht). apply (turned_len _ _ Ht).
Qed.
Lemma lt_range e s : In e lt_tab -> In s (fst e) -> 0 <= s <= 7.
Proof.
  assert (E : forallb (fun e => forallb (fun s => (0 <=? s) && (s <=? 7)) (fst e)) lt_tab = true) by (vm_compute; reflexivity).
  intros He Hs. rewrite forallb_forall in E. specialize (E _ He). cbv beta in E. rewrite forallb_forall in E. specialize (E _ Hs). lia.
Qed.
Lemma lt_find k v : find lt_tree k = Some v -> dget lt_tab k = Some v.
Proof. rewrite lt_tree_eq. apply find_build, lt_len. Qed.
Lemma lt_find_none k : length k = 5%nat -> find lt_tree k = None -> dget lt_tab k = None.
Proof. rewrite lt_tree_eq. apply find_build_none; [apply lt_len|apply lt_range]. Qed.
Lemma lt_entry k v : dget lt_tab k = Some v <-> exists k0, In (k0, v) langton_table /\ turned k0 k.
Proof.
  split.
  - intros E. pose proof (dget_some_key lt_tab k v E) as Hk. pose proof (proj1 (table_keys langton_table lt_tab lt_five lt_tab_eq k) Hk) as Hk'; clear Hk. destruct Hk' as (k0 & v0 & Hin & Ht). rewrite (table_consistent _ _ lt_five lt_consistent lt_tab_eq k0 v0 k Hin Ht) in E. injection E as <-. eauto.
  - intros (k0 & Hin & Ht). apply (table_consistent _ _ lt_five lt_consistent lt_tab_eq k0 v k Hin Ht).
Qed.
Lemma lt_zero : dget lt_tab [0; 0; 0; 0; 0] = Some 0.
Proof. apply lt_find. reflexivity. Qed.
Lemma follows_iff p p' : follows langton_table p p' <-> forall a b, dget lt_tab (key5 p a b) = Some (p' a b).
Proof. unfold follows. split; intros H a b; [apply lt_entry|apply lt_entry]; apply H. Qed.

(** ** the film, computed in a rectangle with an empty frame *)
Definition lt_g0 : list (list Z) := map (fun a => map (fun b => one_loop a b) (zrange (-16) 44)) (zrange (-25) 13).
Definition lt_frames := frames lt_tree 436 lt_g0.
Opaque lt_frames.
Definition check_all : bool :=
  let fs := lt_frames in
  (length fs =? 437)%nat && forallb (inside 1 37 1 59) fs && forallb (inside 20 35 15 41) (firstn 152 fs) &&
  forallb (fun q => match q with (p, (c, f)) => sum_rows 60 82 (shifted 10 21 c) (left_turn 60 p) (shifted 10 10 f) end) (combine (skipn 4 fs) (combine fs (skipn 151 fs))).
Lemma check_true : check_all = true.
Proof. vm_compute. reflexivity. Qed.

Lemma combine_nth2 {X Y Z} (dx : X) (dy : Y) (dz : Z) (P : X * (Y * Z) -> bool) l1 l2 l3 i : forallb P (combine l1 (combine l2 l3)) = true -> (i < length l1)%nat -> (i < length l2)%nat -> (i < length l3)%nat -> P (nth i l1 dx, (nth i l2 dy, nth i l3 dz)) = true.
Proof.
  revert l1 l2 l3. induction i as [|i IH]; intros [|x l1] [|y l2] [|z l3] H H1 H2 H3; cbn [length] in *; try lia; cbn [combine forallb nth] in *; apply andb_prop in H; destruct H as [Ha Hb]; [exact Ha|apply IH; (exact Hb || lia)].
Qed.

Lemma checks : length lt_frames = 437%nat /\ (forall t, (t <= 436)%nat -> inside 1 37 1 59 (nth t lt_frames []) = true) /\ (forall t, (t <= 151)%nat -> inside 20 35 15 41 (nth t lt_frames []) = true) /\
  (forall i, (i <= 285)%nat -> sum_rows 60 82 (shifted 10 21 (nth i lt_frames [])) (left_turn 60 (nth (4 + i) lt_frames [])) (shifted 10 10 (nth (151 + i) lt_frames [])) = true).
Proof.
  pose proof check_true as H. unfold check_all in H. cbv zeta in H. apply andb_prop in H. destruct H as [H H4]. apply andb_prop in H. destruct H as [H H3]. apply andb_prop in H. destruct H as [H1 H2]. apply Nat.eqb_eq in H1.
  split; [exact H1|]. rewrite forallb_forall in H2, H3. split; [|split].
  - intros t Ht. apply H2, nth_In. lia.
  - intros t Ht. rewrite <- (nth_firstn_lt [] 152 lt_frames t ltac:(lia)). apply H3, nth_In. rewrite firstn_length. lia.
  - intros i Hi. pose proof (combine_nth2 [] [] [] _ _ _ _ i H4) as G. rewrite !skipn_length, !nth_skipn in G. apply G; lia.
Qed.

Definition view (g : list (list Z)) : plane := fun a b => if (a <? -25) || (b <? -16) then 0 else at2 g (a + 25) (b + 16).
Definition LF (t : nat) : plane := view (nth t lt_frames []).

Lemma view_inside lo hi lc hc g a b : inside lo hi lc hc g = true -> view g a b <> 0 -> Z.of_nat lo <= a + 25 < Z.of_nat hi /\ Z.of_nat lc <= b + 16 < Z.of_nat hc.
Proof.
  intros H Hne. unfold view in Hne. destruct (Z.ltb_spec a (-25)); [cbn in Hne; congruence|]. destruct (Z.ltb_spec b (-16)); [cbn in Hne; congruence|]. cbn [orb] in Hne. unfold at2 in Hne. apply (inside_nth lo hi lc hc g _ _ H) in Hne. lia.
Qed.
Lemma LF_big t a b : (t <= 436)%nat -> LF t a b <> 0 -> -24 <= a <= 11 /\ -15 <= b <= 42.
Proof. intros Ht H. destruct checks as (_ & C & _). apply (view_inside _ _ _ _ _ a b (C t Ht)) in H. lia. Qed.
Lemma LF_small t a b : (t <= 151)%nat -> LF t a b <> 0 -> -5 <= a <= 9 /\ -1 <= b <= 24.
Proof. intros Ht H. destruct checks as (_ & _ & C & _). apply (view_inside _ _ _ _ _ a b (C t Ht)) in H. lia. Qed.

Lemma one_loop_range a b : one_loop a b <> 0 -> 0 <= a < 10 /\ -1 <= b < 14.
Proof. unfold one_loop. destruct (drawn a b) as [s|] eqn:E; [intros _; eapply drawn_range; exact E|congruence]. Qed.
Lemma nth_map_zrange {X} (f : Z -> X) d lo hi i : 0 <= i < hi - lo -> nth (Z.to_nat i) (map f (zrange lo hi)) d = f (lo + i).
Proof. intros Hi. apply nth_error_nth. rewrite nth_error_map, nth_error_zrange by lia. cbn. do 2 f_equal. lia. Qed.
Lemma lt_g0_dims : dims 38 60 lt_g0.
Proof.
  unfold lt_g0. split; [rewrite map_length, length_zrange; reflexivity|]. apply Forall_forall. intros r Hr. apply in_map_iff in Hr. destruct Hr as (a & <- & _). rewrite map_length, length_zrange. reflexivity.
Qed.
Lemma LF_zero a b : LF 0 a b = one_loop a b.
Proof.
  unfold LF. Transparent lt_frames. unfold lt_frames. Opaque lt_frames. rewrite frames_zero. unfold view.
  destruct (Z.eq_dec (one_loop a b) 0) as [E0|Hne].
  - destruct (Z.ltb_spec a (-25)); [cbn; congruence|]. destruct (Z.ltb_spec b (-16)); [cbn; congruence|]. cbn [orb]. unfold at2, lt_g0. destruct (Z_lt_dec a 13) as [Ha|Ha].
    + rewrite nth_map_zrange by lia. destruct (Z_lt_dec b 44) as [Hb|Hb]; [rewrite nth_map_zrange by lia; f_equal; lia|]. rewrite nth_overflow by (rewrite map_length, length_zrange; lia). congruence.
    + rewrite (nth_overflow (map _ (zrange (-25) 13))) by (rewrite map_length, length_zrange; lia). rewrite E0. destruct (Z.to_nat (b + 16)); reflexivity.
  - pose proof (one_loop_range a b Hne). destruct (Z.ltb_spec a (-25)); [lia|]. destruct (Z.ltb_spec b (-16)); [lia|]. cbn [orb]. unfold at2, lt_g0. rewrite nth_map_zrange by lia. rewrite nth_map_zrange by lia. f_equal; lia.
Qed.

Lemma LF_in t a b : -25 <= a -> -16 <= b -> LF t a b = at2 (nth t lt_frames []) (a + 25) (b + 16).
Proof. intros Ha Hb. unfold LF, view. destruct (Z.ltb_spec a (-25)); [lia|]. destruct (Z.ltb_spec b (-16)); [lia|]. reflexivity. Qed.
Lemma LF_out t a b : (t <= 436)%nat -> ~ (-24 <= a <= 11 /\ -15 <= b <= 42) -> LF t a b = 0.
Proof. intros Ht Hn. destruct (Z.eq_dec (LF t a b) 0) as [E|E]; [exact E|]. apply LF_big in E; [contradiction|assumption]. Qed.

Lemma wrap_row t a b : (t <= 436)%nat -> -26 <= a <= 13 -> -16 <= b -> at2 (nth t lt_frames []) ((a + 25) mod 38) (b + 16) = LF t a b.
Proof.
  intros Ht Ha Hb. destruct (Z.eq_dec a (-26)) as [->|H1].
  - change ((-26 + 25) mod 38) with (12 + 25). rewrite <- LF_in by lia. rewrite !LF_out by lia. reflexivity.
  - destruct (Z.eq_dec a 13) as [->|H2]; [|rewrite Z.mod_small by lia; symmetry; apply LF_in; lia]. change ((13 + 25) mod 38) with (-25 + 25). rewrite <- LF_in by lia. rewrite !LF_out by lia. reflexivity.
Qed.
Lemma wrap_col t a b : (t <= 436)%nat -> -25 <= a -> -17 <= b <= 44 -> at2 (nth t lt_frames []) (a + 25) ((b + 16) mod 60) = LF t a b.
Proof.
  intros Ht Ha Hb. destruct (Z.eq_dec b (-17)) as [->|H1].
  - change ((-17 + 16) mod 60) with (43 + 16). rewrite <- LF_in by lia. rewrite !LF_out by lia. reflexivity.
  - destruct (Z.eq_dec b 44) as [->|H2]; [|rewrite Z.mod_small by lia; symmetry; apply LF_in; lia]. change ((44 + 16) mod 60) with (-16 + 16). rewrite <- LF_in by lia. rewrite !LF_out by lia. reflexivity.
Qed.

Lemma LF_next t a b : (t < 436)%nat -> dget lt_tab (key5 (LF t) a b) = Some (LF (S t) a b).
Proof.
  intros Ht. destruct (Z_le_dec (-25) a) as [A1|A1]; [destruct (Z_le_dec a 12) as [A2|A2]; [destruct (Z_le_dec (-16) b) as [B1|B1]; [destruct (Z_le_dec b 43) as [B2|B2]|]|]|].
  1:{ destruct checks as (Hl & _). assert (Hd : dims 38 60 (nth t lt_frames [])).
      { Transparent lt_frames. apply (frames_dims 38 60 lt_tree 436 lt_g0 eq_refl eq_refl lt_g0_dims). change (frames lt_tree 436 lt_g0) with lt_frames. Opaque lt_frames. lia. }
      assert (Hs : gstep lt_tree (nth t lt_frames []) = Some (nth (S t) lt_frames [])).
      { Transparent lt_frames. apply (frames_at lt_tree 436 lt_g0 t). change (frames lt_tree 436 lt_g0) with lt_frames. Opaque lt_frames. lia. }
      destruct (gstep_ok 38 60 lt_tree eq_refl eq_refl _ _ Hd Hs) as [_ Hf]. specialize (Hf (a + 25) (b + 16) ltac:(lia) ltac:(lia)). apply lt_find in Hf. rewrite <- LF_in in Hf by lia. rewrite <- Hf. f_equal.
      unfold key_at, key5. replace (a + 25 - 1) with (a - 1 + 25) by lia. replace (a + 25 + 1) with (a + 1 + 25) by lia. replace (b + 16 - 1) with (b - 1 + 16) by lia. replace (b + 16 + 1) with (b + 1 + 16) by lia.
      rewrite !wrap_row, !wrap_col by lia. rewrite <- LF_in by lia. reflexivity. }
  all: unfold key5; rewrite !LF_out by lia; exact lt_zero.
Qed.

Lemma LF_film T : (T <= 436)%nat -> film LF T.
Proof. intros HT. split; [apply LF_zero|]. intros t Ht. apply follows_iff. intros a b. apply LF_next. lia. Qed.
Lemma film_unique F F' T : film F T -> film F' T -> forall t, (t <= T)%nat -> forall a b, F t a b = F' t a b.
Proof.
  intros [H0 H1] [H0' H1']. induction t as [|t IH]; intros Ht a b; [rewrite H0, H0'; reflexivity|].
  pose proof (proj1 (follows_iff _ _) (H1 t ltac:(lia)) a b) as E. pose proof (proj1 (follows_iff _ _) (H1' t ltac:(lia)) a b) as E'. unfold key5 in E, E'. rewrite !IH in E by lia. congruence.
Qed.

Lemma LF_recursion t a b : (151 <= t <= 436)%nat -> LF t a b = to_the_right (LF (t - 151)) a b + turn_left (LF (t - 147)) a b.
Proof.
  intros Ht. destruct checks as (_ & _ & _ & C). unfold to_the_right, turn_left.
  destruct (Z_lt_dec a (-35)) as [Ha|Ha]; [rewrite !LF_out by lia; reflexivity|]. destruct (Z_lt_dec b (-26)) as [Hb|Hb]; [rewrite !LF_out by lia; reflexivity|].
  specialize (C (t - 151)%nat ltac:(lia)). replace (4 + (t - 151))%nat with (t - 147)%nat in C by lia. replace (151 + (t - 151))%nat with t in C by lia.
  apply (sum_rows_nth _ _ _ _ _ (Z.to_nat (a + 35)) (Z.to_nat (b + 26))) in C. rewrite !shifted_nth, left_turn_nth in C.
  transitivity (if (Z.to_nat (a + 35) <? 10)%nat || (Z.to_nat (b + 26) <? 10)%nat then 0 else nth (Z.to_nat (b + 26) - 10) (nth (Z.to_nat (a + 35) - 10) (nth t lt_frames []) []) 0).
  - unfold LF, view, at2. destruct (Nat.ltb_spec (Z.to_nat (a + 35)) 10), (Z.ltb_spec a (-25)); try lia; cbn [orb]; try reflexivity. destruct (Nat.ltb_spec (Z.to_nat (b + 26)) 10), (Z.ltb_spec b (-16)); try lia; try reflexivity. f_equal; [lia|f_equal; lia].
  - rewrite C. f_equal.
    + unfold LF, view, at2. destruct (Nat.ltb_spec (Z.to_nat (a + 35)) 10), (Z.ltb_spec a (-25)); try lia; cbn [orb]; try reflexivity. destruct (Nat.ltb_spec (Z.to_nat (b + 26)) 21), (Z.ltb_spec (b - 11) (-16)); try lia; try reflexivity. f_equal; [lia|f_equal; lia].
    + unfold LF, view, at2. destruct (Z.ltb_spec (b + 1) (-25)); [lia|]. cbn [orb]. destruct (Nat.ltb_spec (Z.to_nat (a + 35)) 60), (Z.ltb_spec (8 - a) (-16)); try lia; try reflexivity. f_equal; [lia|f_equal; lia].
Qed.

(** ** many loops on a torus *)
Section Colony.
  Context (rows cols : Z) (T : nat) (loops : list (Z * Z)) (F : nat -> plane).
  Hypothesis HT : (T <= 436)%nat.
  Hypothesis HF : film F T.
  Hypothesis Hrows : box_rows T <= rows.
  Hypothesis Hcols : box_cols T <= cols.
  Hypothesis Hapart : ForallOrdPairs (apart rows cols T) loops.

  Definition r0 := let '(r, _, _, _) := box T in r.
  Definition c0 := let '(_, c, _, _) := box T in c.
  Notation h := (box_rows T).
  Notation w := (box_cols T).
  Lemma box_pos : 0 < h /\ 0 < w.
  Proof. unfold box_rows, box_cols, box. destruct (T <=? 151)%nat; lia. Qed.
  Lemma F_supp t i j : (t <= T)%nat -> F t (r0 + i) (c0 + j) <> 0 -> 1 <= i <= h - 2 /\ 1 <= j <= w - 2.
  Proof.
    intros Ht Hne. rewrite (film_unique F LF T HF (LF_film T HT) t Ht) in Hne. unfold r0, c0, box_rows, box_cols, box in *. destruct (Nat.leb_spec T 151).
    - apply LF_small in Hne; lia.
    - apply LF_big in Hne; lia.
  Qed.
  Lemma F_off t i j : (t <= T)%nat -> ~ (1 <= i <= h - 2 /\ 1 <= j <= w - 2) -> F t (r0 + i) (c0 + j) = 0.
  Proof. intros Ht Hn. destruct (Z.eq_dec (F t (r0 + i) (c0 + j)) 0) as [E|E]; [exact E|]. apply F_supp in E; [contradiction|assumption]. Qed.

  (** a cell counted from the first row and column of the rectangle of a loop *)
  Definition ur (p : Z * Z) (a : Z) := (a - fst p - r0) mod rows.
  Definition uc (p : Z * Z) (b : Z) := (b - snd p - c0) mod cols.
  Definition in_box (p : Z * Z) (a b : Z) : Prop := ur p a < h /\ uc p b < w.
  Lemma rows_pos : 0 < rows /\ 0 < cols. Proof. pose proof box_pos. lia. Qed.
  Lemma ur_range p a : 0 <= ur p a < rows. Proof. apply Z.mod_pos_bound, rows_pos. Qed.
  Lemma uc_range p b : 0 <= uc p b < cols. Proof. apply Z.mod_pos_bound, rows_pos. Qed.
  Lemma seen_eq t p a b : seen rows cols T F t p a b = F t (r0 + ur p a) (c0 + uc p b).
  Proof. unfold seen, ur, uc, r0, c0. destruct (box T) as [[[r c] h'] w']. reflexivity. Qed.

  Lemma apart_off p q a b : apart rows cols T p q -> in_box p a b -> in_box q a b -> False.
  Proof.
    intros Hap [P1 P2] [Q1 Q2]. pose proof rows_pos as [R1 R2]. pose proof (ur_range p a). pose proof (ur_range q a). pose proof (uc_range p b). pose proof (uc_range q b).
    assert (Er : (fst p - fst q) mod rows = (ur q a - ur p a) mod rows) by (unfold ur; rewrite <- Zminus_mod; f_equal; lia).
    assert (Ec : (snd p - snd q) mod cols = (uc q b - uc p b) mod cols) by (unfold uc; rewrite <- Zminus_mod; f_equal; lia).
    destruct Hap as [[K1 K2]|[K1 K2]].
    - rewrite Er in K1, K2. destruct (Z_le_dec 0 (ur q a - ur p a)); [rewrite Z.mod_small in K1 by lia; lia|].
      rewrite <- (Z.mod_unique (ur q a - ur p a) rows (-1) (ur q a - ur p a + rows)) in K2 by lia. lia.
    - rewrite Ec in K1, K2. destruct (Z_le_dec 0 (uc q b - uc p b)); [rewrite Z.mod_small in K1 by lia; lia|].
      rewrite <- (Z.mod_unique (uc q b - uc p b) cols (-1) (uc q b - uc p b + cols)) in K2 by lia. lia.
  Qed.
  Lemma seen_in t p a b : (t <= T)%nat -> seen rows cols T F t p a b <> 0 -> 1 <= ur p a <= h - 2 /\ 1 <= uc p b <= w - 2.
  Proof. rewrite seen_eq. apply F_supp. Qed.

  Lemma ur_shift p a d : ur p ((a + d) mod rows) = (ur p a + d) mod rows.
  Proof. unfold ur. rewrite Zplus_mod_idemp_l. replace ((a + d) mod rows - fst p - r0) with ((a + d) mod rows - (fst p + r0)) by lia. rewrite Zminus_mod_idemp_l. f_equal. lia. Qed.
  Lemma uc_shift p b d : uc p ((b + d) mod cols) = (uc p b + d) mod cols.
  Proof. unfold uc. rewrite Zplus_mod_idemp_l. replace ((b + d) mod cols - snd p - c0) with ((b + d) mod cols - (snd p + c0)) by lia. rewrite Zminus_mod_idemp_l. f_equal. lia. Qed.
  (** a cell whose state or the state of one of whose neighbours is shown by [p] lies in the rectangle of [p] *)
  Lemma near_row p a d : -1 <= d <= 1 -> 1 <= ur p ((a + d) mod rows) <= h - 2 -> ur p a < h.
  Proof.
    intros Hd H. pose proof rows_pos as [R1 R2]. assert (E : ur p ((a + d) mod rows) = (ur p a + d) mod rows) by apply ur_shift.
    rewrite E in H. pose proof (ur_range p a). destruct (Z_lt_dec (ur p a) h) as [Hl|Hl]; [exact Hl|]. exfalso. destruct (Z.eq_dec (ur p a + d) rows) as [Eq|Hne]; [rewrite Eq, Z.mod_same in H by lia; lia|]. rewrite Z.mod_small in H by lia. lia.
  Qed.
  Lemma near_col p b d : -1 <= d <= 1 -> 1 <= uc p ((b + d) mod cols) <= w - 2 -> uc p b < w.
  Proof.
    intros Hd H. pose proof rows_pos as [R1 R2]. assert (E : uc p ((b + d) mod cols) = (uc p b + d) mod cols) by apply uc_shift.
    rewrite E in H. pose proof (uc_range p b). destruct (Z_lt_dec (uc p b) w) as [Hl|Hl]; [exact Hl|]. exfalso. destruct (Z.eq_dec (uc p b + d) cols) as [Eq|Hne]; [rewrite Eq, Z.mod_same in H by lia; lia|]. rewrite Z.mod_small in H by lia. lia.
  Qed.
  Lemma near_in t p a b d e : (t <= T)%nat -> -1 <= d <= 1 -> -1 <= e <= 1 -> seen rows cols T F t p ((a + d) mod rows) ((b + e) mod cols) <> 0 -> in_box p a b.
  Proof. intros Ht Hd He H. apply seen_in in H; [|assumption]. split; [eapply near_row; [exact Hd|apply H]|eapply near_col; [exact He|apply H]]. Qed.

  (** within the rectangle of [p], [p] shows the film *)
  Lemma seen_near t p a b d e : (t <= T)%nat -> -1 <= d <= 1 -> -1 <= e <= 1 -> in_box p a b -> seen rows cols T F t p ((a + d) mod rows) ((b + e) mod cols) = F t (r0 + (ur p a + d)) (c0 + (uc p b + e)).
  Proof.
    intros Ht Hd He [B1 B2]. rewrite seen_eq. pose proof rows_pos as [R1 R2].
    assert (E : ur p ((a + d) mod rows) = (ur p a + d) mod rows) by apply ur_shift.
    assert (E' : uc p ((b + e) mod cols) = (uc p b + e) mod cols) by apply uc_shift.
    rewrite E, E'. pose proof (ur_range p a). pose proof (uc_range p b).
    assert (Hcase : forall u n m, 0 <= u < m -> m <= n -> forall k, -1 <= k <= 1 -> (u + k) mod n = u + k \/ (~ (1 <= (u + k) mod n <= m - 2) /\ ~ (1 <= u + k <= m - 2))).
    { intros u n m Hu Hm k Hk. destruct (Z.eq_dec (u + k) (-1)) as [E1|N1]; [right; rewrite E1, <- (Z.mod_unique (-1) n (-1) (n - 1)) by lia; lia|]. destruct (Z.eq_dec (u + k) n) as [E2|N2]; [right; rewrite E2, Z.mod_same by lia; lia|]. left. apply Z.mod_small. lia. }
    destruct (Hcase (ur p a) rows h ltac:(lia) Hrows d Hd) as [-> | [X1 X2]]; [|rewrite !F_off by tauto; reflexivity].
    destruct (Hcase (uc p b) cols w ltac:(lia) Hcols e He) as [-> | [X1 X2]]; [reflexivity|rewrite !F_off by tauto; reflexivity].
  Qed.

  Lemma one_term (f : Z * Z -> Z) p : In p loops -> forall a b, in_box p a b -> (forall q, In q loops -> f q <> 0 -> in_box q a b) -> zsum (map f loops) = f p.
  Proof.
    intros Hin a b Hp Hf. induction Hapart as [|q l Hq Hl IH]; [destruct Hin|]. cbn [map]. rewrite zsum_cons. rewrite Forall_forall in Hq. destruct Hin as [->|Hin].
    - assert (E : zsum (map f l) = 0); [|lia]. assert (Hz : forall q, In q l -> f q = 0).
      { intros q Hql. destruct (Z.eq_dec (f q) 0) as [E|E]; [exact E|]. exfalso. apply (apart_off p q a b (Hq q Hql) Hp). apply Hf; [right; assumption|assumption]. }
      clear - Hz. induction l as [|x l IH]; [reflexivity|]. cbn [map]. rewrite zsum_cons, (Hz x (or_introl eq_refl)), IH; [reflexivity|]. intros q Hq. apply Hz. right. assumption.
    - rewrite IH; [|assumption|assumption|intros q' Hq' E; apply Hf; [right; assumption|assumption]]. destruct (Z.eq_dec (f q) 0) as [E|E]; [lia|]. exfalso. apply (apart_off q p a b (Hq p Hin)); [apply Hf; [left; reflexivity|assumption]|assumption].
  Qed.
  Lemma no_term (f : Z * Z -> Z) : (forall q, In q loops -> f q = 0) -> zsum (map f loops) = 0.
  Proof. clear. induction loops as [|x l IH]; intros Hz; [reflexivity|]. cbn [map]. rewrite zsum_cons, (Hz x (or_introl eq_refl)), IH; [reflexivity|]. intros q Hq. apply Hz. right. assumption. Qed.

  Lemma in_box_dec p a b : {in_box p a b} + {~ in_box p a b}.
  Proof. unfold in_box. destruct (Z_lt_dec (ur p a) h), (Z_lt_dec (uc p b) w); [left; tauto|right; tauto|right; tauto|right; tauto]. Qed.

  Notation colony := (colony rows cols T loops F).
  Lemma colony_key t a b : 0 <= a < rows -> 0 <= b < cols -> torus_key rows cols (colony t) a b = map (fun de => colony t ((a + fst de) mod rows) ((b + snd de) mod cols)) [(0, 0); (-1, 0); (0, 1); (1, 0); (0, -1)].
  Proof.
    intros Ha Hb. unfold torus_key. cbn [map fst snd]. rewrite !Z.add_0_r. rewrite (Z.mod_small a rows), (Z.mod_small b cols) by lia. reflexivity.
  Qed.
  Lemma key5_map (p : plane) x y : key5 p x y = map (fun de => p (x + fst de) (y + snd de)) [(0, 0); (-1, 0); (0, 1); (1, 0); (0, -1)].
  Proof. unfold key5. cbn [map fst snd]. rewrite !Z.add_0_r. reflexivity. Qed.

  Lemma colony_next t a b : (t < T)%nat -> 0 <= a < rows -> 0 <= b < cols -> dget lt_tab (torus_key rows cols (colony t) a b) = Some (colony (S t) a b).
  Proof.
    intros Ht Ha Hb. rewrite colony_key by assumption.
    assert (Hsmall : forall de, In de [(0, 0); (-1, 0); (0, 1); (1, 0); (0, -1)] -> -1 <= fst de <= 1 /\ -1 <= snd de <= 1) by (intros de Hde; cbn in Hde; repeat destruct Hde as [<-|Hde]; cbn; lia || destruct Hde).
    assert (Eab : forall s, colony s a b = colony s ((a + 0) mod rows) ((b + 0) mod cols)) by (intros s; rewrite !Z.add_0_r, !Z.mod_small by lia; reflexivity).
    destruct (Exists_dec (fun p => in_box p a b) loops (fun p => in_box_dec p a b)) as [Hex|Hno].
    - apply Exists_exists in Hex. destruct Hex as (p & Hp & Hbox).
      assert (Hc : forall s d e, (s <= T)%nat -> -1 <= d <= 1 -> -1 <= e <= 1 -> colony s ((a + d) mod rows) ((b + e) mod cols) = F s (r0 + (ur p a + d)) (c0 + (uc p b + e))).
      { intros s d e Hs Hd He. unfold LoopSpec.colony. rewrite (one_term _ p Hp a b Hbox); [apply seen_near; assumption|]. intros q _ Hne. eapply near_in; [exact Hs|exact Hd|exact He|exact Hne]. }
      rewrite Eab, Hc by lia. rewrite !Z.add_0_r. destruct HF as [_ Hstep]. rewrite <- (proj1 (follows_iff _ _) (Hstep t Ht)). f_equal. rewrite key5_map. apply map_ext_in. intros de Hde. destruct (Hsmall de Hde) as [Hd He]. rewrite Hc by (assumption || lia). rewrite !Z.add_assoc. reflexivity.
    - assert (Hz : forall s d e, (s <= T)%nat -> -1 <= d <= 1 -> -1 <= e <= 1 -> colony s ((a + d) mod rows) ((b + e) mod cols) = 0).
      { intros s d e Hs Hd He. apply no_term. intros q Hq. match goal with |- ?x = 0 => destruct (Z.eq_dec x 0) as [E|E]; [exact E|] end. exfalso. apply Hno, Exists_exists. exists q. split; [assumption|]. eapply near_in; [exact Hs|exact Hd|exact He|exact E]. }
      rewrite Eab, Hz by lia. cbn [map fst snd]. rewrite !Hz by lia. exact lt_zero.
  Qed.

  Lemma colony_start a b : 0 <= a < rows -> 0 <= b < cols -> (forall p, In p loops -> 0 <= fst p /\ fst p + 10 <= rows /\ 1 <= snd p /\ snd p + 14 <= cols) ->
    forall s, ((exists pre p post, loops = pre ++ p :: post /\ drawn (a - fst p) (b - snd p) = Some s /\ forall q, In q post -> drawn (a - fst q) (b - snd q) = None) \/
         ((forall q, In q loops -> drawn (a - fst q) (b - snd q) = None) /\ s = 0)) -> s = colony 0 a b.
  Proof.
    intros Ha Hb Hpos s Hs. pose proof rows_pos as [R1 R2]. destruct HF as [H0 _]. destruct Hs as [(pre & p & post & El & Ed & _)|[Hno ->]].
    - assert (Hp : In p loops) by (rewrite El; apply in_or_app; right; left; reflexivity). pose proof (drawn_range _ _ _ Ed) as [D1 D2].
      assert (Eu : ur p a = a - fst p - r0 /\ a - fst p - r0 < h) by (unfold ur, r0, box_rows, box in *; destruct (T <=? 151)%nat; rewrite Z.mod_small by lia; lia).
      assert (Ev : uc p b = b - snd p - c0 /\ b - snd p - c0 < w) by (unfold uc, c0, box_cols, box in *; destruct (T <=? 151)%nat; rewrite Z.mod_small by lia; lia).
      assert (Hbox : in_box p a b) by (split; lia). unfold LoopSpec.colony. rewrite (one_term _ p Hp a b Hbox).
      + rewrite seen_eq. destruct Eu as [-> _]. destruct Ev as [-> _]. replace (r0 + (a - fst p - r0)) with (a - fst p) by lia. replace (c0 + (b - snd p - c0)) with (b - snd p) by lia. rewrite H0. unfold one_loop. rewrite Ed. reflexivity.
      + intros q _ Hne. apply seen_in in Hne; [|lia]. split; lia.
    - symmetry. apply no_term. intros q Hq. rewrite seen_eq, H0. destruct (Z.eq_dec (one_loop (r0 + ur q a) (c0 + uc q b)) 0) as [E|E]; [exact E|]. exfalso. pose proof (one_loop_range _ _ E) as [D1 D2]. destruct (Hpos q Hq) as (P1 & P2 & P3 & P4).
      assert (Ea : r0 + ur q a = a - fst q).
      { assert (Em : (r0 + ur q a + fst q) mod rows = a mod rows) by (unfold ur; rewrite (Z.add_comm r0), <- Z.add_assoc, Zplus_mod_idemp_l; f_equal; lia). rewrite !Z.mod_small in Em by lia. lia. }
      assert (Eb : c0 + uc q b = b - snd q).
      { assert (Em : (c0 + uc q b + snd q) mod cols = b mod cols) by (unfold uc; rewrite (Z.add_comm c0), <- Z.add_assoc, Zplus_mod_idemp_l; f_equal; lia). rewrite !Z.mod_small in Em by lia. lia. }
      apply E. rewrite Ea, Eb. unfold one_loop. rewrite (Hno q Hq). reflexivity.
  Qed.
End Colony.
