(** * Proofs about LangtonsLoop.init_loops *)
From Verif Require Import Py PyFacts ListFacts Topology TopologySpec TopologyProofs CtrblSpec Ctrbl Langton.
Open Scope Z_scope.

Definition grid (rows cols : Z) (f : Z -> Z -> Z) : list (list Z) := map (fun a => map (fun b => f a b) (zrange 0 cols)) (zrange 0 rows).
Definition write (f : Z -> Z -> Z) (i j x : Z) : Z -> Z -> Z := fun a b => if (a =? i) && (b =? j) then x else f a b.

Lemma grid_ext rows cols f g : (forall a b, 0 <= a < rows -> 0 <= b < cols -> f a b = g a b) -> grid rows cols f = grid rows cols g.
Proof.
  intros Hf. unfold grid. apply map_ext_in. intros a Ha. apply map_ext_in. intros b Hb. apply in_zrange in Ha, Hb. auto.
Qed.

Lemma upd_map_zrange {A} (f : Z -> A) n k g : 0 <= k < n -> upd_nth (map f (zrange 0 n)) (Z.to_nat k) g = map (fun i => if i =? k then g (f i) else f i) (zrange 0 n).
Proof.
  intros Hk. apply nth_error_ext. intros i. rewrite nth_error_upd_nth, !nth_error_map.
  destruct (lt_dec i (Z.to_nat n)) as [Hi|Hi].
  - rewrite nth_error_zrange by lia. cbn [option_map]. destruct (Nat.eq_dec i (Z.to_nat k)) as [->|Hne].
    + destruct (Z.eqb_spec (0 + Z.of_nat (Z.to_nat k)) k); [reflexivity|lia].
    + destruct (Z.eqb_spec (0 + Z.of_nat i) k); [lia|reflexivity].
  - assert (E : nth_error (zrange 0 n) i = None) by (apply nth_error_None; rewrite length_zrange; lia). rewrite E. destruct (Nat.eq_dec _ _); reflexivity.
Qed.

Lemma mat_set_grid rows cols f i j x : 0 <= i < rows -> 0 <= j < cols -> mat_set (grid rows cols f) i j x = Ok (grid rows cols (write f i j x)).
Proof.
  intros Hi Hj. unfold mat_set. unfold grid at 1. rewrite map_length, length_zrange.
  rewrite py_index_mod by lia. rewrite (Z2Nat.id (rows - 0)) by lia. rewrite Z.sub_0_r, Z.mod_small by lia.
  unfold grid at 1. rewrite nth_error_map_zrange by lia. rewrite map_length, length_zrange. rewrite py_index_mod by lia. rewrite (Z2Nat.id (cols - 0)) by lia. rewrite Z.sub_0_r, Z.mod_small by lia.
  f_equal. unfold grid. rewrite upd_map_zrange by lia. apply map_ext. intros a. destruct (Z.eqb_spec a i) as [->|Hne].
  - rewrite upd_map_zrange by lia. apply map_ext. intros b. unfold write. rewrite Z.eqb_refl. cbn [andb]. reflexivity.
  - apply map_ext. intros b. unfold write. destruct (Z.eqb_spec a i); [contradiction|reflexivity].
Qed.

Definition last_write (ws : list (Z * Z * Z)) (f : Z -> Z -> Z) : Z -> Z -> Z := fold_left (fun f w => write f (fst (fst w)) (snd (fst w)) (snd w)) ws f.

Lemma writes_grid rows cols r c ws f : (forall w, In w ws -> 0 <= r + fst (fst w) < rows /\ 0 <= c + snd (fst w) < cols) ->
  rfold (fun M w => let '(dr, dc, s) := w in mat_set M (r + dr) (c + dc) s) ws (grid rows cols f)
  = Ok (grid rows cols (last_write (map (fun w => (r + fst (fst w), c + snd (fst w), snd w)) ws) f)).
Proof.
  revert f. induction ws as [|[[dr dc] s] ws IH]; intros f Hw; cbn [rfold]; [reflexivity|].
  destruct (Hw _ (or_introl eq_refl)) as [H1 H2]. cbn [fst snd] in H1, H2. rewrite mat_set_grid by assumption. cbn [rbind]. rewrite IH; [reflexivity|].
  intros w Hin. apply Hw. right. assumption.
Qed.

Fixpoint find_write (ws : list (Z * Z * Z)) (a b : Z) : option Z :=
  match ws with
  | [] => None
  | (i, j, s) :: ws => match find_write ws a b with Some x => Some x | None => if (a =? i) && (b =? j) then Some s else None end
  end.

Lemma last_write_find ws f a b : last_write ws f a b = match find_write ws a b with Some s => s | None => f a b end.
Proof.
  revert f. induction ws as [|[[i j] s] ws IH]; intros f; cbn [last_write fold_left find_write]; [reflexivity|].
  change (fold_left _ ws ?g) with (last_write ws g). rewrite IH. destruct (find_write ws a b); [reflexivity|]. unfold write. cbn [fst snd]. destruct (_ && _); reflexivity.
Qed.

Lemma find_shift ws r c a b : find_write (map (fun w => (r + fst (fst w), c + snd (fst w), snd w)) ws) a b = find_write ws (a - r) (b - c).
Proof.
  induction ws as [|[[i j] s] ws IH]; cbn [map find_write fst snd]; [reflexivity|]. rewrite IH.
  replace (a =? r + i) with (a - r =? i) by (destruct (Z.eqb_spec (a - r) i), (Z.eqb_spec a (r + i)); lia || reflexivity).
  replace (b =? c + j) with (b - c =? j) by (destruct (Z.eqb_spec (b - c) j), (Z.eqb_spec b (c + j)); lia || reflexivity). reflexivity.
Qed.

Lemma loop_writes_range w : In w loop_writes -> 0 <= fst (fst w) < 10 /\ -1 <= snd (fst w) < 14.
Proof.
  assert (E : forallb (fun w => (0 <=? fst (fst w)) && (fst (fst w) <? 10) && ((-1 <=? snd (fst w)) && (snd (fst w) <? 14))) loop_writes = true) by (vm_compute; reflexivity).
  intros Hin. rewrite forallb_forall in E. specialize (E _ Hin). lia.
Qed.

Lemma find_write_in ws a b s : find_write ws a b = Some s -> exists w, In w ws /\ fst w = (a, b).
Proof.
  induction ws as [|[[i j] x] ws IH]; cbn [find_write]; [discriminate|]. destruct (find_write ws a b) as [y|].
  - intros E. destruct (IH E) as (w & Hw & Ew). exists w. split; [right; assumption|assumption].
  - destruct (Z.eqb_spec a i) as [->|]; [|discriminate]. destruct (Z.eqb_spec b j) as [->|]; [|discriminate]. intros _. exists (i, j, x). split; [left; reflexivity|reflexivity].
Qed.

Lemma drawn_range dr dc s : drawn dr dc = Some s -> 0 <= dr < 10 /\ -1 <= dc < 14.
Proof.
  unfold drawn. destruct (Z.ltb_spec dr 0); [discriminate|]. destruct (Z.ltb_spec dc (-1)); [discriminate|]. cbn [orb].
  destruct (nth_error loop_drawing (Z.to_nat dr)) as [st|] eqn:En; [|discriminate].
  assert (Hr : (Z.to_nat dr < 10)%nat) by (apply (proj1 (nth_error_Some loop_drawing (Z.to_nat dr))); congruence).
  destruct (String.get (Z.to_nat (dc + 1)) st) as [ch|] eqn:Eg; [|discriminate]. intros _. split; [lia|].
  assert (Hget : forall s k c, String.get k s = Some c -> (k < String.length s)%nat).
  { induction s0 as [|c0 s0 IH]; intros k c E; cbn in *; [discriminate|]. destruct k; [lia|]. specialize (IH k c E). lia. }
  apply Hget in Eg. assert (Hlen : (String.length st <= 15)%nat).
  { apply nth_error_In in En. assert (E : forallb (fun s => Nat.leb (String.length s) 15) loop_drawing = true) by (vm_compute; reflexivity).
    rewrite forallb_forall in E. apply Nat.leb_le. apply (E _ En). }
  lia.
Qed.

Lemma loop_find dr dc : find_write loop_writes dr dc = drawn dr dc.
Proof.
  assert (E : forallb (fun dr => forallb (fun dc => match find_write loop_writes dr dc, drawn dr dc with
      | Some x, Some y => x =? y | None, None => true | _, _ => false end) (zrange (-1) 14)) (zrange 0 10) = true) by (vm_compute; reflexivity).
  destruct (Z_le_dec 0 dr) as [H1|H1].
  1: destruct (Z_lt_dec dr 10) as [H2|H2].
  1: destruct (Z_le_dec (-1) dc) as [H3|H3].
  1: destruct (Z_lt_dec dc 14) as [H4|H4].
  1:{ rewrite forallb_forall in E. specialize (E dr (proj2 (in_zrange _ _ _) (conj H1 H2))). cbv beta in E. rewrite forallb_forall in E. specialize (E dc (proj2 (in_zrange _ _ _) (conj H3 H4))). cbv beta in E.
      destruct (find_write loop_writes dr dc), (drawn dr dc); try discriminate; [|reflexivity]. f_equal. apply Z.eqb_eq. assumption. }
  all: destruct (find_write loop_writes dr dc) as [x|] eqn:Ef;
    [apply find_write_in in Ef; destruct Ef as (w & Hw & Ew); apply loop_writes_range in Hw; rewrite Ew in Hw; cbn [fst snd] in Hw; lia|];
    destruct (drawn dr dc) as [y|] eqn:Ed; [apply drawn_range in Ed; lia|reflexivity].
Qed.

(** [overlay loops a b]: what the last loop drawn over the cell shows, 0 if there is none *)
Definition overlay (loops : list (Z * Z)) (f : Z -> Z -> Z) : Z -> Z -> Z :=
  fold_left (fun f p => fun a b => match drawn (a - fst p) (b - snd p) with Some s => s | None => f a b end) loops f.

Lemma loops_grid rows cols row col : forall k pre post f loops,
  row = map fst pre ++ map fst loops ++ post -> col = map snd pre ++ map snd loops -> length pre = k ->
  (forall p, In p loops -> 0 <= fst p /\ fst p + 10 <= rows /\ 1 <= snd p /\ snd p + 14 <= cols) ->
  rfold (fun M i =>
      r <- of_opt IndexError (py_nth row i) ;;
      c <- of_opt IndexError (py_nth col i) ;;
      rfold (fun M w => let '(dr, dc, s) := w in mat_set M (r + dr) (c + dc) s) loop_writes M)
    (zrange (Z.of_nat k) (Z.of_nat (k + length loops))) (grid rows cols f) = Ok (grid rows cols (overlay loops f)).
Proof.
  intros k pre post f loops. revert k pre f. induction loops as [|[r c] loops IH]; intros k pre f Er Ec Ek Hin.
  - cbn [length]. rewrite Nat.add_0_r, zrange_nil by lia. reflexivity.
  - rewrite zrange_cons by (cbn [length]; lia). cbn [rfold].
    assert (E1 : py_nth row (Z.of_nat k) = Some r).
    { unfold py_nth. rewrite py_index_nonneg by (rewrite Er, !app_length, !map_length; cbn [length]; lia). rewrite Er, nth_error_app2 by (rewrite map_length; lia). rewrite map_length, Ek, Nat.sub_diag. reflexivity. }
    assert (E2 : py_nth col (Z.of_nat k) = Some c).
    { unfold py_nth. rewrite py_index_nonneg by (rewrite Ec, !app_length, !map_length; cbn [length]; lia). rewrite Ec, nth_error_app2 by (rewrite map_length; lia). rewrite map_length, Ek, Nat.sub_diag. reflexivity. }
    rewrite E1, E2. cbn [of_opt rbind]. destruct (Hin _ (or_introl eq_refl)) as (B1 & B2 & B3 & B4). cbn [fst snd] in *.
    rewrite writes_grid by (intros w Hw; apply loop_writes_range in Hw; lia). cbn [rbind].
    replace (Z.of_nat k + 1) with (Z.of_nat (S k)) by lia. replace (k + length ((r, c) :: loops))%nat with (S k + length loops)%nat by (cbn [length]; lia).
    rewrite (IH (S k) (pre ++ [(r, c)])).
    + f_equal. apply grid_ext. intros a b _ _. cbn [overlay fold_left]. fold (overlay loops).
      assert (Hext : forall ls f g, (forall a b, f a b = g a b) -> forall a b, overlay ls f a b = overlay ls g a b).
      { clear. induction ls as [|p ls IH]; intros f g Hfg a b; cbn [overlay fold_left]; [apply Hfg|]. apply IH. intros a' b'. rewrite Hfg. reflexivity. }
      apply Hext. intros a' b'. rewrite last_write_find, find_shift, loop_find. reflexivity.
    + rewrite map_app, <- app_assoc. exact Er.
    + rewrite map_app, <- app_assoc. exact Ec.
    + rewrite app_length. cbn [length]. lia.
    + intros p Hp. apply Hin. right. assumption.
Qed.

Lemma overlay_cons p loops f : overlay (p :: loops) f = overlay loops (fun a b => match drawn (a - fst p) (b - snd p) with Some s => s | None => f a b end).
Proof. reflexivity. Qed.

Lemma overlay_spec loops f a b :
  (exists pre p post s, loops = pre ++ p :: post /\ drawn (a - fst p) (b - snd p) = Some s /\ (forall q, In q post -> drawn (a - fst q) (b - snd q) = None) /\ overlay loops f a b = s) \/
  ((forall q, In q loops -> drawn (a - fst q) (b - snd q) = None) /\ overlay loops f a b = f a b).
Proof.
  revert f. induction loops as [|p loops IH]; intros f; [right; split; [intros q []|reflexivity]|].
  rewrite overlay_cons. destruct (IH (fun a b => match drawn (a - fst p) (b - snd p) with Some s => s | None => f a b end)) as [(pre & q & post & s & E & Hd & Hp & Eo)|[Hn Eo]].
  - left. exists (p :: pre), q, post, s. rewrite E at 1. auto.
  - rewrite Eo. destruct (drawn (a - fst p) (b - snd p)) as [s|] eqn:Ed.
    + left. exists [], p, loops, s. auto.
    + right. split; [|reflexivity]. intros q [<-|Hq]; auto.
Qed.

Lemma nth_concat_grid rows cols f a b : 0 <= a < rows -> 0 <= b < cols -> nth_error (concat (grid rows cols f)) (Z.to_nat (a * cols + b)) = Some (f a b).
Proof.
  intros Ha Hb. unfold grid. rewrite <- flat_map_concat_map.
  assert (Hg : forall k lo, 0 <= a - lo < Z.of_nat k -> nth_error (flat_map (fun a => map (fun b => f a b) (zrange 0 cols)) (zrange lo (lo + Z.of_nat k))) (Z.to_nat ((a - lo) * cols + b)) = Some (f a b)).
  { induction k as [|k IH]; intros lo Hlo; [lia|]. rewrite (zrange_cons lo) by lia. cbn [flat_map].
    destruct (Z.eq_dec a lo) as [->|Hne].
    - rewrite nth_error_app1 by (rewrite map_length, length_zrange; lia). replace ((lo - lo) * cols + b) with b by lia. apply nth_error_map_zrange. assumption.
    - rewrite nth_error_app2 by (rewrite map_length, length_zrange; nia). rewrite map_length, length_zrange.
      replace (lo + Z.of_nat (S k)) with (lo + 1 + Z.of_nat k) by lia.
      replace (Z.to_nat ((a - lo) * cols + b) - Z.to_nat (cols - 0))%nat with (Z.to_nat ((a - (lo + 1)) * cols + b)) by nia. apply IH. lia. }
  specialize (Hg (Z.to_nat rows) 0). rewrite Z2Nat.id, Z.add_0_l, Z.sub_0_r in Hg by lia. apply Hg. lia.
Qed.

Lemma length_concat_grid rows cols f : 0 <= rows -> 0 <= cols -> Z.of_nat (length (concat (grid rows cols f))) = rows * cols.
Proof.
  intros Hr Hc. unfold grid. rewrite <- flat_map_concat_map.
  assert (Hg : forall l : list Z, Z.of_nat (length (flat_map (fun a => map (fun b => f a b) (zrange 0 cols)) l)) = Z.of_nat (length l) * cols).
  { induction l as [|x l IH]; [reflexivity|]. cbn [flat_map]. rewrite app_length, Nat2Z.inj_add, IH, map_length, length_zrange. cbn [length]. lia. }
  rewrite Hg, length_zrange. nia.
Qed.

Theorem init_loops_spec rows cols loops post : 0 <= rows -> 0 <= cols ->
  (forall p, In p loops -> 0 <= fst p /\ fst p + 10 <= rows /\ 1 <= snd p /\ snd p + 14 <= cols) ->
  exists l, init_loops rows cols (Z.of_nat (length loops)) (map fst loops ++ post) (map snd loops) = Ok l /\ Z.of_nat (length l) = rows * cols /\
    forall a b, 0 <= a < rows -> 0 <= b < cols -> exists s, nth_error l (Z.to_nat (a * cols + b)) = Some s /\
      ((exists pre p post, loops = pre ++ p :: post /\ drawn (a - fst p) (b - snd p) = Some s /\ forall q, In q post -> drawn (a - fst q) (b - snd q) = None) \/
       ((forall q, In q loops -> drawn (a - fst q) (b - snd q) = None) /\ s = 0)).
Proof.
  intros Hr Hc Hin. unfold init_loops, init_loops_grid. destruct (Z.ltb_spec rows 0); [lia|]. destruct (Z.ltb_spec cols 0); [lia|]. cbn [orb].
  assert (E0 : repeat (repeat 0 (Z.to_nat cols)) (Z.to_nat rows) = grid rows cols (fun _ _ => 0)).
  { unfold grid, zrange. rewrite !Z.sub_0_r, !map_map.
    assert (Hrep : forall {X} (x : X) n s, repeat x n = map (fun _ => x) (seq s n)) by (intros X x n; induction n; intros s; cbn; [reflexivity|f_equal; auto]).
    rewrite (Hrep _ _ _ 0%nat). apply map_ext. intros _. apply Hrep. }
  rewrite E0. pose proof (loops_grid rows cols (map fst loops ++ post) (map snd loops) 0 [] post (fun _ _ => 0) loops eq_refl eq_refl eq_refl Hin) as E.
  cbn [Nat.add] in E. change (Z.of_nat 0) with 0 in E. rewrite E. cbn [rbind]. eexists. split; [reflexivity|]. split; [apply length_concat_grid; assumption|].
  intros a b Ha Hb. eexists. split; [apply nth_concat_grid; assumption|].
  destruct (overlay_spec loops (fun _ _ => 0) a b) as [(pre & p & post' & s & El & Hd & Hp & ->)|[Hn ->]]; [left; eauto 8|right; auto].
Qed.
