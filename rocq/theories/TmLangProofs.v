(** * The machine of turing_machine_demo1b.py settles on every word, in q6 exactly for a^n b^n c^n *)
From Verif Require Import Py PyFacts ListFacts Turing TuringSpec TmDemos TmZipper.
Open Scope list_scope.
Open Scope nat_scope.

(** [w] is n times a, n times b, n times c *)
Definition in_language (w : list sym) : Prop :=
  exists n, w = repeat cell_a n ++ repeat cell_b n ++ repeat cell_c n.

Notation rch := (reach anbncn).

Definition unmark (s : sym) : sym :=
  if eqb s cell_x then cell_a else if eqb s cell_y then cell_b else if eqb s cell_z then cell_c else s.
Definition isz (s : sym) : bool := eqb s cell_z.
Definition marked (s : sym) : Prop := s = cell_a \/ s = cell_b \/ s = cell_c \/ s = cell_z.
Definition nz (s : list sym) : nat := length (filter isz s).
Definition head_not_a (s : list sym) : Prop := forall s', s <> cell_a :: s'.

Lemma repeat_app_inv {A} (x : A) m n l l' : (forall k, l <> x :: k) -> (forall k, l' <> x :: k) ->
  repeat x m ++ l = repeat x n ++ l' -> m = n /\ l = l'.
Proof.
  intros Hl Hl'. revert n. induction m as [|m IH]; intros [|n] E; cbn in E.
  - split; [reflexivity|exact E].
  - destruct (Hl _ E).
  - symmetry in E. destruct (Hl' _ E).
  - injection E as E. destruct (IH _ E). subst. split; reflexivity.
Qed.

Lemma split_head {A} (P : A -> bool) (l : list A) : exists t r, l = t ++ r /\ (forall x, In x t -> P x = true) /\ (r = [] \/ exists y r', r = y :: r' /\ P y = false).
Proof.
  induction l as [|x l IH]; [exists [], []; repeat split; [intros ? []|left; reflexivity]|].
  destruct (P x) eqn:E.
  - destruct IH as (t & r & -> & Ht & Hr). exists (x :: t), r. repeat split; [|exact Hr]. intros y [<-|Hy]; [exact E|apply Ht; exact Hy].
  - exists [], (x :: l). repeat split; [intros ? []|]. right. exists x, l. split; [reflexivity|exact E].
Qed.

Lemma unmark_not_a s r : marked s -> s <> cell_a -> map unmark (s :: r) <> cell_a :: map unmark r.
Proof. intros [->|[->|[->| ->]]] Hs; [congruence|cbn; discriminate..]. Qed.
Lemma unmark_head s k : Forall marked s -> head_not_a s -> map unmark s <> cell_a :: k.
Proof.
  destruct s as [|x s]; intros Hs Ha; [discriminate|]. inversion_clear Hs as [|? ? Hx _]. destruct Hx as [->|[->|[->| ->]]]; cbn; [destruct (Ha s eq_refl)|discriminate..].
Qed.

(** once the number of a's is read off, membership is about the rest *)
Lemma member i p s : Forall marked s -> head_not_a s ->
  in_language (repeat cell_a (i + p) ++ repeat cell_b i ++ map unmark s) <-> map unmark s = repeat cell_b p ++ repeat cell_c (i + p).
Proof.
  intros Hs Ha. split.
  - intros (n & E). apply repeat_app_inv in E.
    + destruct E as [<- E]. rewrite repeat_app, <- app_assoc in E. apply app_inv_head in E. exact E.
    + intros k. destruct i; [apply unmark_head; assumption|discriminate].
    + intros k. destruct n; discriminate.
  - intros ->. exists (i + p). rewrite (repeat_app cell_b), <- !app_assoc. reflexivity.
Qed.

Lemma nz_app s t : nz (s ++ t) = nz s + nz t.
Proof. unfold nz. rewrite filter_app, app_length. reflexivity. Qed.
Lemma count_c_bz t : (forall x, In x t -> x = cell_b \/ x = cell_z) -> length (filter (fun s => eqb s cell_c) (map unmark t)) = nz t.
Proof.
  induction t as [|x t IH]; intros Ht; [reflexivity|]. unfold nz in *. cbn [map filter].
  destruct (Ht x (or_introl eq_refl)) as [->| ->]; cbn [unmark]; change (eqb (unmark cell_b) cell_c) with false; change (eqb (unmark cell_z) cell_c) with true; change (isz cell_b) with false; change (isz cell_z) with true; cbv iota; cbn [length]; rewrite IH by (intros; apply Ht; right; assumption); reflexivity.
Qed.
Lemma count_c_bc p n : length (filter (fun s => eqb s cell_c) (repeat cell_b p ++ repeat cell_c n)) = n.
Proof.
  rewrite filter_app, app_length. replace (length (filter _ (repeat cell_b p))) with 0 by (induction p; [reflexivity|assumption]).
  induction n as [|n IH]; [reflexivity|]. cbn [repeat filter]. change (eqb cell_c cell_c) with true. cbn [length]. cbn [plus] in *. rewrite IH. reflexivity.
Qed.
Lemma in_bc x p n : In x (repeat cell_b p ++ repeat cell_c n) -> x = cell_b \/ x = cell_c.
Proof. intros Hx. apply in_app_or in Hx. destruct Hx as [Hx|Hx]; apply repeat_spec in Hx; auto. Qed.

Lemma all_z s : (forall x, In x s -> x = cell_z) -> s = repeat cell_z (length s).
Proof. induction s as [|x s IH]; intros Hs; [reflexivity|]. cbn [length repeat]. rewrite (Hs x (or_introl eq_refl)) at 1. f_equal. apply IH. intros; apply Hs; right; assumption. Qed.
Lemma nz_le s : nz s <= length s.
Proof. unfold nz. induction s as [|x s IH]; [reflexivity|]. cbn [filter]. destruct (isz x); cbn [length]; lia. Qed.
Lemma nz_all s : nz s = length s -> forall x, In x s -> x = cell_z.
Proof.
  induction s as [|y s IH]; intros E x Hx; [destruct Hx|]. unfold nz in E. cbn [filter] in E. pose proof (nz_le s) as Hl. unfold nz in Hl.
  destruct (isz y) eqn:Ey; cbn [length] in E; [|lia]. destruct Hx as [<-|Hx]; [apply eqb_true; exact Ey|]. apply IH; [unfold nz; lia|exact Hx].
Qed.
Lemma unmark_z n : map unmark (repeat cell_z n) = repeat cell_c n.
Proof. induction n as [|n IH]; [reflexivity|]. cbn [repeat map]. rewrite IH. reflexivity. Qed.
Lemma nz_repeat n : nz (repeat cell_z n) = n.
Proof. unfold nz. induction n as [|n IH]; [reflexivity|]. cbn [repeat filter]. change (isz cell_z) with true. cbn [length]. rewrite IH. reflexivity. Qed.

(** membership at the end: everything is crossed *)
Lemma member_end i s : Forall marked s -> nz s = i -> (map unmark s = repeat cell_c i <-> forall x, In x s -> x = cell_z).
Proof.
  intros Hs Hi. split.
  - intros E. apply nz_all. rewrite Hi. rewrite <- (map_length unmark), E, repeat_length. reflexivity.
  - intros Hz. rewrite (all_z s Hz), unmark_z in *. f_equal. rewrite nz_repeat in Hi. exact Hi.
Qed.

(** the result wanted: a bound on the steps, a fixed configuration, its state *)
Definition settles (c : conf Z sym) (bound : nat) (w : list sym) : Prop :=
  exists k c', rch k c c' /\ k <= bound /\ next anbncn c' = Some c' /\ (cf_q c' = 6%Z <-> in_language w).

Lemma settles_later j c c' b b' w : rch j c c' -> settles c' b w -> j + b <= b' -> settles c b' w.
Proof. intros Hj (k & c'' & Hk & Hb & Hf & Hq) Hle. exists (j + k), c''. split; [exact (reach_trans _ _ _ _ _ _ Hj Hk)|]. split; [lia|]. split; assumption. Qed.
Lemma stuck q u s v b w : entry anbncn q s = Some (q, s, 1%Z) -> (q = 6%Z <-> in_language w) -> settles (zip q u (s :: v)) b w.
Proof. intros E Hq. exists 0, (zip q u (s :: v)). split; [constructor|]. split; [lia|]. split; [apply step_stay; exact E|exact Hq]. Qed.

Lemma app_ne {A} (l : list A) x r : l ++ x :: r <> [].
Proof. destruct l; discriminate. Qed.

(** no letters a left: check that nothing is left over *)
Lemma last_phase L0 R0 i s : Forall marked s -> head_not_a s -> nz s = i ->
  settles (zip 0%Z ((L0 ++ [blank]) ++ repeat cell_x i) (repeat cell_y i ++ s ++ blank :: R0)) (3 * i + length s + 3)
    (repeat cell_a (i + 0) ++ repeat cell_b i ++ map unmark s).
Proof.
  intros Hs Ha Hi. pose proof (member i 0 s Hs Ha) as M. rewrite Nat.add_0_r in M at 2. cbn [repeat app] in M. rewrite (member_end i s Hs Hi) in M.
  destruct i as [|i].
  - cbn [repeat app] in *. destruct s as [|x s]; cbn [app].
    + apply (settles_later 1 _ (zip 6%Z ((L0 ++ [blank]) ++ []) (blank :: R0)) 0); [apply reach_one, step_stay; reflexivity| |cbn [length]; lia].
      apply stuck; [reflexivity|]. split; [intros _; apply M; intros ? []|reflexivity].
    + assert (Hx : x <> cell_z) by (intros ->; discriminate Hi). pose proof (Forall_inv Hs) as Hm.
      apply stuck; [destruct Hm as [->|[->|[->| ->]]]; [destruct (Ha s eq_refl)|reflexivity..]|]. split; [discriminate|]. intros Hw. destruct (Hx (proj1 M Hw x (or_introl eq_refl))).
  - set (w := repeat cell_a (S i + 0) ++ repeat cell_b (S i) ++ map unmark s) in *.
    set (L := L0 ++ [blank]). set (rest := s ++ blank :: R0). cbn [repeat app].
    assert (Ex : L ++ cell_x :: repeat cell_x i = (L ++ repeat cell_x i) ++ [cell_x]) by (rewrite <- app_assoc; f_equal; apply repeat_cons).
    rewrite Ex.
    apply (settles_later 1 _ (zip 4%Z (L ++ repeat cell_x i) (cell_x :: cell_y :: repeat cell_y i ++ rest)) (3 * i + length s + 5)); [apply reach_one, step_left; reflexivity| |lia].
    apply (settles_later (length (repeat cell_x (S i))) _ (zip 4%Z L0 (blank :: repeat cell_x (S i) ++ cell_y :: repeat cell_y i ++ rest)) (2 * i + length s + 4)); [apply sweep_left; [intros y Hy; apply repeat_spec in Hy; subst; reflexivity|]| |rewrite repeat_length; lia].
    { unfold L. cbn [repeat]. rewrite repeat_cons, <- !app_assoc. reflexivity. }
    apply (settles_later 1 _ (zip 5%Z L (repeat cell_x (S i) ++ cell_y :: repeat cell_y i ++ rest)) (2 * i + length s + 3)); [apply reach_one, step_right; [reflexivity|cbn; discriminate]| |lia].
    destruct (split_head isz s) as (t & r & Es & Ht & Hr). unfold rest. rewrite Es, <- app_assoc.
    assert (Ht' : forall x, In x t -> x = cell_z) by (intros x Hx; apply eqb_true; exact (Ht x Hx)).
    apply (settles_later (length (repeat cell_x (S i) ++ repeat cell_y (S i) ++ t)) _ (zip 5%Z (L ++ repeat cell_x (S i) ++ repeat cell_y (S i) ++ t) (r ++ blank :: R0)) 1).
    { replace (repeat cell_x (S i) ++ cell_y :: repeat cell_y i ++ t ++ r ++ blank :: R0) with ((repeat cell_x (S i) ++ repeat cell_y (S i) ++ t) ++ r ++ blank :: R0) by (rewrite <- !app_assoc; reflexivity).
      apply sweep_right; [|apply app_ne]. intros y Hy. apply in_app_or in Hy. destruct Hy as [Hy|Hy]; [apply repeat_spec in Hy; subst; reflexivity|].
      apply in_app_or in Hy. destruct Hy as [Hy|Hy]; [apply repeat_spec in Hy; subst; reflexivity|]. rewrite (Ht' y Hy). reflexivity. }
    2:{ rewrite !app_length, !repeat_length. lia. }
    destruct Hr as [->|(y & r' & -> & Hy)]; cbn [app].
    + eapply (settles_later 1); [apply reach_one, step_stay; reflexivity| |reflexivity]. apply stuck; [reflexivity|]. split; [|reflexivity]. intros _. apply M. rewrite Es, app_nil_r. exact Ht'.
    + assert (Hm : marked y) by (rewrite Forall_forall in Hs; apply Hs; rewrite Es; apply in_or_app; right; left; reflexivity).
      apply stuck; [destruct Hm as [->|[->|[->| ->]]]; [reflexivity..|discriminate Hy]|]. split; [discriminate|]. intros Hw.
      pose proof (proj1 M Hw y) as Hz. rewrite Hz in Hy; [discriminate Hy|]. rewrite Es. apply in_or_app. right. left. reflexivity.
Qed.

Definition isbz (s : sym) : bool := eqb s cell_b || eqb s cell_z.

Lemma rounds L0 R0 p : forall i s, Forall marked s -> head_not_a s -> nz s = i ->
  let N := i + p + i + length s in
  settles (zip 0%Z ((L0 ++ [blank]) ++ repeat cell_x i) (repeat cell_a p ++ repeat cell_y i ++ s ++ blank :: R0)) (2 * N * p + 2 * N + 3)
    (repeat cell_a (i + p) ++ repeat cell_b i ++ map unmark s).
Proof.
  induction p as [|p IH]; intros i s Hs Ha Hi N.
  { destruct (last_phase L0 R0 i s Hs Ha Hi) as (k & c' & Hk & Hle & H'). exists k, c'. split; [exact Hk|]. split; [unfold N; lia|exact H']. }
  pose proof (member i (S p) s Hs Ha) as M. set (w := repeat cell_a (i + S p) ++ repeat cell_b i ++ map unmark s) in *.
  set (L := L0 ++ [blank]) in *. cbn [repeat app].
  assert (Hfirst : forall rest, rest <> [] -> rch (1 + length (repeat cell_a p ++ repeat cell_y i)) (zip 0%Z (L ++ repeat cell_x i) (cell_a :: repeat cell_a p ++ repeat cell_y i ++ rest))
                     (zip 1%Z (((L ++ repeat cell_x i) ++ [cell_x]) ++ repeat cell_a p ++ repeat cell_y i) rest)).
  { intros rest Hr. eapply reach_trans; [apply reach_one, step_right; [reflexivity|]|].
    - destruct p; [destruct i; [exact Hr|discriminate]|discriminate].
    - rewrite app_assoc. apply sweep_right; [|exact Hr]. intros y Hy. apply in_app_or in Hy. destruct Hy as [Hy|Hy]; apply repeat_spec in Hy; subst; reflexivity. }
  eapply (settles_later _ _ _ (2 * N * p + 4 * N - (1 + (p + i)) + 3)); [apply Hfirst, app_ne| |rewrite app_length, !repeat_length; nia].
  set (u1 := (L ++ repeat cell_x i) ++ [cell_x]). destruct s as [|x s]; cbn [app].
  { apply stuck; [reflexivity|]. split; [discriminate|]. intros Hw. apply M in Hw. discriminate Hw. }
  pose proof (Forall_inv Hs) as Hx. pose proof (Forall_inv_tail Hs) as Hs'.
  assert (Hcase : x = cell_b \/ (x = cell_c \/ x = cell_z)) by (destruct Hx as [->|[->|[->| ->]]]; [destruct (Ha s eq_refl)|auto..]).
  destruct Hcase as [->|Hcz].
  2:{ apply stuck; [destruct Hcz as [->| ->]; reflexivity|]. split; [discriminate|]. intros Hw. apply M in Hw. destruct Hcz as [->| ->]; discriminate Hw. }
  destruct (split_head isbz s) as (t & r & Es & Ht & Hr).
  assert (Ht' : forall x, In x t -> x = cell_b \/ x = cell_z) by (intros x Hxt; pose proof (Ht x Hxt) as E; unfold isbz in E; apply orb_prop in E; destruct E as [E|E]; [left|right]; exact (proj1 (eqb_true _ _) E)).
  eapply (settles_later 1 _ _ (2 * N * p + 4 * N - (1 + (p + i)) + 2)); [apply reach_one, step_right; [reflexivity|apply app_ne]| |unfold N; cbn [length]; lia].
  set (u2 := u1 ++ repeat cell_a p ++ repeat cell_y i).
  rewrite Es at 1. rewrite <- app_assoc.
  assert (HN : N = i + S p + i + S (length t + length r)) by (unfold N; cbn [length]; rewrite Es, app_length; reflexivity).
  apply (settles_later (length t) _ (zip 2%Z ((u2 ++ [cell_y]) ++ t) (r ++ blank :: R0)) (2 * N * p + 4 * N - (1 + (p + i)) + 2 - length t)); [apply sweep_right; [|apply app_ne]| |rewrite HN; lia].
  { intros y Hy. destruct (Ht' y Hy) as [->| ->]; reflexivity. }
  destruct Hr as [->|(y & r' & -> & Hy)]; cbn [app].
  { apply stuck; [reflexivity|]. split; [discriminate|]. intros Hw. apply M in Hw. exfalso.
    apply (f_equal (fun l => length (filter (fun s => eqb s cell_c) l))) in Hw. rewrite count_c_bc in Hw. rewrite count_c_bz in Hw.
    - rewrite Hi in Hw. lia.
    - rewrite Es, app_nil_r. intros z [<-|Hz]; [left; reflexivity|exact (Ht' z Hz)]. }
  assert (Hmy : marked y) by (rewrite Forall_forall in Hs'; apply Hs'; rewrite Es; apply in_or_app; right; left; reflexivity).
  assert (Hyc : y = cell_a \/ y = cell_c) by (destruct Hmy as [->|[->|[->| ->]]]; [auto|discriminate Hy|auto|discriminate Hy]).
  destruct Hyc as [->| ->].
  { apply stuck; [reflexivity|]. split; [discriminate|]. intros Hw. apply M in Hw. exfalso.
    assert (Hin : In cell_a (map unmark (cell_b :: s))) by (apply in_map_iff; exists cell_a; split; [reflexivity|]; right; rewrite Es; apply in_or_app; right; left; reflexivity).
    rewrite Hw in Hin. apply in_bc in Hin. destruct Hin; discriminate. }
  (* the round is completed *)
  set (s1 := t ++ cell_z :: r').
  assert (Hs1 : Forall marked s1).
  { rewrite Forall_forall in Hs' |- *. intros z Hz. apply in_app_or in Hz. destruct Hz as [Hz|[<-|Hz]]; [apply Hs'; rewrite Es; apply in_or_app; left; exact Hz|unfold marked; auto|apply Hs'; rewrite Es; apply in_or_app; right; right; exact Hz]. }
  assert (Ha1 : head_not_a s1).
  { intros z Ez. destruct t as [|t0 t]; [discriminate Ez|]. injection Ez as -> _. destruct (Ht' cell_a (or_introl eq_refl)); discriminate. }
  assert (Hi1 : nz s1 = S i).
  { rewrite <- Hi. unfold s1. rewrite Es. change (cell_b :: t ++ cell_c :: r') with ([cell_b] ++ t ++ [cell_c] ++ r'). change (t ++ cell_z :: r') with (t ++ [cell_z] ++ r'). rewrite !nz_app. cbn. lia. }
  assert (Hw1 : w = repeat cell_a (S i + p) ++ repeat cell_b (S i) ++ map unmark s1).
  { unfold w, s1. rewrite Es. replace (i + S p) with (S i + p) by lia. f_equal. cbn [map]. rewrite !map_app. cbn [map]. change (unmark cell_b) with cell_b. change (unmark cell_c) with cell_c. change (unmark cell_z) with cell_c.
    cbn [repeat]. rewrite repeat_cons, <- app_assoc. reflexivity. }
  pose proof (IH (S i) s1 Hs1 Ha1 Hi1) as HI. rewrite <- Hw1 in HI.
  assert (EN : S i + p + S i + length s1 = N) by (rewrite HN; unfold s1; rewrite app_length; cbn [length]; lia). cbv zeta in HI. rewrite EN in HI.
  (* back to the last x *)
  destruct (exists_last (l := (u2 ++ [cell_y]) ++ t)) as (u3 & s3 & E3); [destruct u2; discriminate|].
  assert (EU : (u2 ++ [cell_y]) ++ t = (L ++ repeat cell_x i) ++ cell_x :: (repeat cell_a p ++ repeat cell_y (S i) ++ t)).
  { unfold u2, u1. cbn [repeat]. rewrite (repeat_cons i cell_y), <- !app_assoc. reflexivity. }
  eapply (settles_later 1 _ (zip 3%Z u3 (s3 :: cell_z :: r' ++ blank :: R0)) (2 * N * p + 4 * N - (1 + (p + i)) + 1 - length t)); [rewrite E3; apply reach_one, step_left; reflexivity| |rewrite HN; lia].
  eapply (settles_later (length (repeat cell_a p ++ repeat cell_y (S i) ++ t)) _ (zip 3%Z (L ++ repeat cell_x i) (cell_x :: (repeat cell_a p ++ repeat cell_y (S i) ++ t) ++ cell_z :: r' ++ blank :: R0)) (2 * N * p + 2 * N + 4)).
  { apply sweep_left; [|rewrite <- EU; exact E3]. intros z Hz. apply in_app_or in Hz. destruct Hz as [Hz|Hz]; [apply repeat_spec in Hz; subst; reflexivity|].
    apply in_app_or in Hz. destruct Hz as [Hz|Hz]; [apply repeat_spec in Hz; subst; reflexivity|]. destruct (Ht' z Hz) as [->| ->]; reflexivity. }
  2:{ rewrite !app_length, !repeat_length, HN. cbn [length]. lia. }
  eapply (settles_later 1); [apply reach_one, step_right; [reflexivity|apply app_ne]| |].
  { assert (ES : zip 0%Z ((L ++ repeat cell_x i) ++ [cell_x]) ((repeat cell_a p ++ repeat cell_y (S i) ++ t) ++ cell_z :: r' ++ blank :: R0)
               = zip 0%Z (L ++ repeat cell_x (S i)) (repeat cell_a p ++ repeat cell_y (S i) ++ s1 ++ blank :: R0)).
    { unfold s1. rewrite <- !app_assoc. cbn [repeat]. rewrite (repeat_cons i cell_x). reflexivity. }
    rewrite ES. exact HI. }
  lia.
Qed.

(** every word over a, b, c *)
Lemma word_settles L0 R0 w : (forall x, In x w -> x = cell_a \/ x = cell_b \/ x = cell_c) ->
  settles (zip 0%Z (L0 ++ [blank]) (w ++ blank :: R0)) (2 * length w * length w + 2 * length w + 3) w.
Proof.
  intros Hw. destruct (split_head (fun s => eqb s cell_a) w) as (t & s & Ew & Ht & Hs).
  assert (Et : t = repeat cell_a (length t)).
  { clear -Ht. induction t as [|x t IH]; [reflexivity|]. cbn [length repeat]. pose proof (proj1 (eqb_true _ _) (Ht x (or_introl eq_refl))) as ->. f_equal. apply IH. intros; apply Ht; right; assumption. }
  assert (Hm : Forall marked s) by (apply Forall_forall; intros x Hx; unfold marked; destruct (Hw x) as [?|[?|?]]; [rewrite Ew; apply in_or_app; right; exact Hx|auto..]).
  assert (Hna : head_not_a s) by (intros k Ek; destruct Hs as [->|(y & r & -> & Hy)]; [discriminate|injection Ek as -> _; discriminate Hy]).
  assert (Hws : forall x, In x s -> x = cell_a \/ x = cell_b \/ x = cell_c) by (intros x Hx; apply Hw; rewrite Ew; apply in_or_app; right; exact Hx).
  assert (Hz : nz s = 0).
  { clear -Hws. unfold nz. induction s as [|x s IH]; [reflexivity|]. cbn [filter]. assert (E : isz x = false) by (destruct (Hws x (or_introl eq_refl)) as [->|[->| ->]]; reflexivity). rewrite E. apply IH. intros; apply Hws; right; assumption. }
  assert (Eu : map unmark s = s).
  { clear -Hws. induction s as [|x s IH]; [reflexivity|]. cbn [map]. f_equal; [destruct (Hws x (or_introl eq_refl)) as [->|[->| ->]]; reflexivity|]. apply IH. intros; apply Hws; right; assumption. }
  pose proof (rounds L0 R0 (length t) 0 s Hm Hna Hz) as HR. cbv zeta in HR. cbn [repeat app plus] in HR. rewrite Eu, !app_nil_r, <- Et in HR.
  assert (Lw : length w = length t + length s) by (rewrite Ew; apply app_length). rewrite app_assoc, <- Ew in HR.
  destruct HR as (k & c' & Hk & Hle & H'). exists k, c'. split; [exact Hk|]. split; [|exact H']. rewrite Nat.add_0_r in Hle. rewrite <- Lw in Hle.
  assert (2 * length w * length t <= 2 * length w * length w) by (apply Nat.mul_le_mono_l; lia). lia.
Qed.
