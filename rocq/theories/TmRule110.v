(** * The machine of turing_machine_demo1c.py goes through the rows of rule 110 *)
From Verif Require Import Py PyFacts ListFacts Turing TuringSpec TmDemos TmZipper.
Open Scope list_scope.
Open Scope Z_scope.

(** rule 110: the new colour is the bit of 110 numbered by the three old colours *)
Definition rule110 (l c r : bool) : bool := Z.testbit 110 (4 * Z.b2z l + 2 * Z.b2z c + Z.b2z r).
(** the rows on the infinite line *)
Fixpoint world (f : Z -> bool) (n : nat) (x : Z) : bool :=
  match n with
  | O => f x
  | S n => rule110 (world f n (x - 1)) (world f n x) (world f n (x + 1))
  end.
(** a row with [w] at the places from [o] on and white cells elsewhere *)
Definition placed (o : Z) (w : list bool) (x : Z) : bool := if x <? o then false else nth (Z.to_nat (x - o)) w false.

(** white is written a, black is written e *)
Definition cellof (x : bool) : sym := if x then SInt 4 else SInt 0.
Definition cell_2b : sym := SInt 1.

Definition up : Z := 1.
Definition dir (x : bool) : Z := if x then 2 else 1.
Definition enc (x y : bool) : sym := if xorb x y then SInt 3 else if x then SInt 2 else SInt 1.
Fixpoint encs (m : list bool) (r : bool) : list sym := match m with [] => [] | x :: m => enc x (hd r m) :: encs m r end.
Fixpoint step110 (l : bool) (m : list bool) (r : bool) : list bool := match m with [] => [] | x :: m => rule110 l x (hd r m) :: step110 x m r end.

Lemma encs_snoc m x r : encs (m ++ [x]) r = encs m x ++ [enc x r].
Proof. induction m as [|y m IH]; [reflexivity|]. cbn [app encs]. rewrite IH. destruct m; reflexivity. Qed.
Lemma encs_length m r : length (encs m r) = length m.
Proof. induction m as [|x m IH]; [reflexivity|]. cbn [encs length]. rewrite IH. reflexivity. Qed.
Lemma step110_length l m r : length (step110 l m r) = length m.
Proof. revert l. induction m as [|x m IH]; intros l; [reflexivity|]. cbn [step110 length]. rewrite IH. reflexivity. Qed.

(** [k] steps lead from one configuration to the other, and the head of all but the last is at [X] at most *)
Inductive upto (X : Z) : nat -> conf Z sym -> conf Z sym -> Prop :=
| upto_0 c : upto X 0 c c
| upto_S k c c1 c2 : cf_p c <= X -> next nks25 c = Some c1 -> upto X k c1 c2 -> upto X (S k) c c2.
Lemma upto_trans X j k c1 c2 c3 : upto X j c1 c2 -> upto X k c2 c3 -> upto X (j + k) c1 c3.
Proof. induction 1 as [|j c c' c'' Hp E _ IH]; intros Hk; [exact Hk|]. cbn [plus]. exact (upto_S X _ _ _ _ Hp E (IH Hk)). Qed.
Lemma upto_one X c c' : cf_p c <= X -> next nks25 c = Some c' -> upto X 1 c c'.
Proof. intros Hp E. exact (upto_S X 0 c c' c' Hp E (upto_0 X c')). Qed.
Lemma upto_reach X k c c' : upto X k c c' -> reach nks25 k c c'.
Proof. induction 1 as [|k c c1 c2 _ E _ IH]; [constructor|]. exact (reach_S _ _ _ _ _ E IH). Qed.
Lemma upto_pos X k c c' : upto X k c c' -> forall j, (j < k)%nat -> cf_p (after nks25 j c) <= X.
Proof.
  induction 1 as [|k c c1 c2 Hp E _ IH]; intros j Hj; [lia|]. destruct j as [|j]; [exact Hp|]. cbn [after]. rewrite E. apply IH. lia.
Qed.

(** to the left: every cell takes down whether it and the cell to its right are black *)
Lemma left_entry x r : entry nks25 (dir r) (cellof x) = Some (dir x, enc x r, 0).
Proof. destruct x, r; reflexivity. Qed.
Lemma left_pass X m : forall r u t v, Z.of_nat (length u + length m) <= X ->
  forall u' s', u ++ t :: map cellof m = u' ++ [s'] -> upto X (length m) (zip (dir r) u' (s' :: v)) (zip (dir (hd r m)) u (t :: encs m r ++ v)).
Proof.
  induction m as [|x m IH] using rev_ind; intros r u t v HX u' s' E.
  - apply app_inj_tail in E. destruct E as [<- <-]. constructor.
  - rewrite map_app in E. cbn [map] in E. replace (u ++ t :: map cellof m ++ [cellof x]) with ((u ++ t :: map cellof m) ++ [cellof x]) in E by (rewrite <- app_assoc; reflexivity). apply app_inj_tail in E. destruct E as [<- <-].
    rewrite app_length in *. cbn [length] in *. rewrite (Nat.add_comm (length m)). cbn [plus]. rewrite encs_snoc, <- app_assoc. cbn [app].
    destruct (exists_last (l := u ++ t :: map cellof m)) as (u2 & s2 & E2); [destruct u; discriminate|].
    assert (Hlen : (length u2 + 1 = length u + 1 + length m)%nat) by (apply (f_equal (@length sym)) in E2; rewrite !app_length in E2; cbn [length] in E2; rewrite map_length in E2; lia).
    rewrite E2. apply (upto_S X _ _ (zip (dir x) u2 (s2 :: enc x r :: v))).
    + unfold zip. cbn [cf_p]. rewrite app_length. cbn [length]. lia.
    + apply step_left. apply left_entry.
    + replace (hd r (m ++ [x])) with (hd x m) by (destruct m; reflexivity). apply IH; [lia|exact E2].
Qed.

(** to the right: rule 110 from what was taken down and the state *)
Lemma right_entry l x r : entry nks25 (dir (xorb l x)) (enc x r) = Some (dir (xorb x r), cellof (rule110 l x r), 2).
Proof. destruct l, x, r; reflexivity. Qed.
Lemma right_pass X m : forall l r u v, v <> [] -> Z.of_nat (length u + length m) <= X ->
  upto X (length m) (zip (dir (xorb l (hd r m))) u (encs m r ++ v)) (zip (dir (xorb (last m l) r)) (u ++ map cellof (step110 l m r)) v).
Proof.
  induction m as [|x m IH]; intros l r u v Hv HX.
  - cbn [encs step110 map app length hd last]. rewrite app_nil_r. constructor.
  - cbn [encs step110 map app length hd]. cbn [length] in HX.
    apply (upto_S X _ _ (zip (dir (xorb x (hd r m))) (u ++ [cellof (rule110 l x (hd r m))]) (encs m r ++ v))).
    + unfold zip. cbn [cf_p]. lia.
    + apply step_right; [apply right_entry|]. destruct m; [exact Hv|discriminate].
    + replace (u ++ cellof (rule110 l x (hd r m)) :: map cellof (step110 x m r)) with ((u ++ [cellof (rule110 l x (hd r m))]) ++ map cellof (step110 x m r)) by (rewrite <- app_assoc; reflexivity).
      replace (last (x :: m) l) with (last m x) by (clear; destruct m as [|y m]; [reflexivity|]; cbn [last]; revert y; induction m as [|z m IH]; intros y; [reflexivity|]; apply IH).
      apply IH; [exact Hv|]. rewrite app_length. cbn [length]. lia.
Qed.

(** there and back *)
Definition grown (w : list bool) : list bool := false :: step110 false w false ++ [false].
Lemma round u w v : hd false w = false ->
  upto (Z.of_nat (length u + 1 + length w)) (2 * length w + 3) (zip up ((u ++ [cell_2b]) ++ map cellof w) (SInt 0 :: SInt 0 :: v)) (zip up (u ++ map cellof (grown w)) (SInt 0 :: v)).
Proof.
  intros Hw. set (X := Z.of_nat (length u + 1 + length w)).
  replace (2 * length w + 3)%nat with (1 + (length w + (1 + (length w + 1))))%nat by lia.
  destruct (exists_last (l := u ++ cell_2b :: map cellof w)) as (u2 & s2 & E2); [destruct u; discriminate|].
  assert (Hlen : (length u2 = length u + length w)%nat) by (apply (f_equal (@length sym)) in E2; rewrite !app_length in E2; cbn [length] in E2; rewrite map_length in E2; lia).
  replace ((u ++ [cell_2b]) ++ map cellof w) with (u ++ cell_2b :: map cellof w) by (rewrite <- app_assoc; reflexivity). rewrite E2.
  eapply upto_trans; [apply upto_one; [|apply step_left; reflexivity]|].
  { unfold zip, X. cbn [cf_p]. rewrite app_length. cbn [length]. lia. }
  eapply upto_trans; [apply (left_pass X w false u cell_2b); [unfold X; lia|exact E2]|]. rewrite Hw.
  eapply upto_trans; [apply upto_one; [|apply (step_right _ 1 u cell_2b _ 1 (SInt 0)); [reflexivity|destruct w; discriminate]]|].
  { unfold zip, X. cbn [cf_p]. lia. }
  eapply upto_trans.
  { pose proof (right_pass X w false false (u ++ [SInt 0]) (SInt 1 :: SInt 0 :: v)) as RP. rewrite Hw in RP. apply RP; [discriminate|]. unfold X. rewrite app_length. cbn [length]. lia. }
  apply upto_one.
  - unfold zip, X. cbn [cf_p]. rewrite !app_length, map_length, step110_length. cbn [length]. lia.
  - replace (u ++ map cellof (grown w)) with (((u ++ [SInt 0]) ++ map cellof (step110 false w false)) ++ [SInt 0]) by (unfold grown; cbn [map]; rewrite map_app, <- !app_assoc; reflexivity).
    apply step_right; [|discriminate]. destruct (last w false); reflexivity.
Qed.

(** what the rows are *)
Lemma step110_nth w : forall l i, (i < length w)%nat -> nth i (step110 l w false) false = rule110 (match i with O => l | S j => nth j w false end) (nth i w false) (nth (S i) w false).
Proof.
  induction w as [|x w IH]; intros l i Hi; [cbn [length] in Hi; lia|]. destruct i as [|i]; cbn [step110 nth].
  - destruct w; reflexivity.
  - rewrite IH by (cbn [length] in Hi; lia). destruct i; reflexivity.
Qed.
Lemma placed_grown o w x : hd false w = false -> placed (o - 1) (grown w) x = rule110 (placed o w (x - 1)) (placed o w x) (placed o w (x + 1)).
Proof.
  intros Hw. unfold placed at 1. destruct (Z.ltb_spec x (o - 1)) as [Hx|Hx].
  - unfold placed. replace (x - 1 <? o) with true by (symmetry; apply Z.ltb_lt; lia). replace (x <? o) with true by (symmetry; apply Z.ltb_lt; lia). replace (x + 1 <? o) with true by (symmetry; apply Z.ltb_lt; lia). reflexivity.
  - destruct (Z.eq_dec x (o - 1)) as [->|Hne].
    + rewrite Z.sub_diag. cbn [Z.to_nat grown nth]. unfold placed. replace (o - 1 - 1 <? o) with true by (symmetry; apply Z.ltb_lt; lia). replace (o - 1 <? o) with true by (symmetry; apply Z.ltb_lt; lia).
      replace (o - 1 + 1) with o by lia. rewrite Z.ltb_irrefl, Z.sub_diag. cbn [Z.to_nat]. destruct w as [|b w]; [reflexivity|]. cbn [hd] in Hw. subst b. reflexivity.
    + set (i := Z.to_nat (x - o)). replace (Z.to_nat (x - (o - 1))) with (S i) by (unfold i; lia). cbn [grown nth].
      unfold placed. replace (x <? o) with false by (symmetry; apply Z.ltb_ge; lia). replace (x + 1 <? o) with false by (symmetry; apply Z.ltb_ge; lia).
      fold i. replace (Z.to_nat (x + 1 - o)) with (S i) by (unfold i; lia).
      assert (EL : (if x - 1 <? o then false else nth (Z.to_nat (x - 1 - o)) w false) = match i with O => false | S j => nth j w false end).
      { destruct (Z.ltb_spec (x - 1) o) as [H1|H1]; [replace i with 0%nat by (unfold i; lia); reflexivity|]. replace i with (S (Z.to_nat (x - 1 - o))) by (unfold i; lia). reflexivity. }
      rewrite EL. destruct (Nat.ltb_spec i (length w)) as [Hi|Hi].
      * rewrite app_nth1 by (rewrite step110_length; exact Hi). apply step110_nth. exact Hi.
      * rewrite app_nth2 by (rewrite step110_length; exact Hi). rewrite step110_length.
        replace (nth (i - length w) [false] false) with false by (destruct (i - length w)%nat as [|[|?]]; reflexivity).
        rewrite (nth_overflow w false) by lia. rewrite (nth_overflow w false (n := S i)) by lia. destruct (match i with O => _ | S j => _ end); reflexivity.
Qed.

Fixpoint rows (w : list bool) (n : nat) : list bool := match n with O => w | S n => grown (rows w n) end.
Lemma rows_hd w n : hd false w = false -> hd false (rows w n) = false.
Proof. destruct n; [auto|reflexivity]. Qed.
Lemma rows_length w n : length (rows w n) = (length w + 2 * n)%nat.
Proof. induction n as [|n IH]; [cbn; lia|]. cbn [rows]. unfold grown. cbn [length]. rewrite app_length, step110_length, IH. cbn [length]. lia. Qed.
Lemma rows_world o w n : hd false w = false -> forall x, placed (o - Z.of_nat n) (rows w n) x = world (placed o w) n x.
Proof.
  intros Hw. induction n as [|n IH]; intros x; [cbn [rows world]; rewrite Z.sub_0_r; reflexivity|].
  cbn [rows world]. rewrite <- !IH. replace (o - Z.of_nat (S n)) with (o - Z.of_nat n - 1) by lia. apply placed_grown. apply rows_hd. exact Hw.
Qed.
Lemma placed_list o w : w = map (placed o w) (zrange o (o + Z.of_nat (length w))).
Proof.
  apply nth_error_ext. intros i. rewrite nth_error_map. unfold zrange. rewrite nth_error_map.
  replace (Z.to_nat (o + Z.of_nat (length w) - o)) with (length w) by lia. destruct (Nat.ltb_spec i (length w)) as [Hi|Hi].
  - replace (nth_error (seq 0 (length w)) i) with (Some i) by (symmetry; rewrite (nth_error_nth' _ 0%nat) by (rewrite seq_length; exact Hi); rewrite seq_nth by exact Hi; reflexivity).
    cbn [option_map]. unfold placed. replace (o + Z.of_nat i <? o) with false by (symmetry; apply Z.ltb_ge; lia). replace (Z.to_nat (o + Z.of_nat i - o)) with i by lia. apply nth_error_nth'. exact Hi.
  - rewrite (proj2 (nth_error_None _ _)) by exact Hi. rewrite (proj2 (nth_error_None _ _)) by (rewrite seq_length; exact Hi). reflexivity.
Qed.

(** the configuration at the [n]-th return *)
Definition at_return (l r : nat) (w : list bool) (n : nat) : conf Z sym :=
  mkConf 1 (Z.of_nat (l + length w + n)) (repeat (SInt 1) (l - n) ++ map cellof (rows w n) ++ repeat (SInt 0) (r - n)).
(** the step of the [n]-th return *)
Definition return_time (w : list bool) (n : nat) : nat := (2 * n * n + (2 * length w + 1) * n)%nat.

Lemma return_step l r w n : hd false w = false -> (n < l)%nat -> (n + 1 < r)%nat ->
  upto (Z.of_nat (l + length w + n)) (2 * (length w + 2 * n) + 3) (at_return l r w n) (at_return l r w (S n)).
Proof.
  intros Hw Hl Hr. pose proof (round (repeat (SInt 1) (l - n - 1)) (rows w n) (repeat (SInt 0) (r - n - 2)) (rows_hd w n Hw)) as HR.
  rewrite repeat_length, rows_length in HR. replace (l - n - 1 + 1 + (length w + 2 * n))%nat with (l + length w + n)%nat in HR by lia.
  assert (E1 : at_return l r w n = zip up ((repeat (SInt 1) (l - n - 1) ++ [cell_2b]) ++ map cellof (rows w n)) (SInt 0 :: SInt 0 :: repeat (SInt 0) (r - n - 2))).
  { unfold at_return, zip, up. rewrite !app_length, map_length, rows_length, repeat_length. cbn [length]. unfold cell_2b. rewrite <- repeat_cons.
    change (SInt 1 :: repeat (SInt 1) (l - n - 1)) with (repeat (SInt 1) (S (l - n - 1))). change (SInt 0 :: SInt 0 :: repeat (SInt 0) (r - n - 2)) with (repeat (SInt 0) (S (S (r - n - 2)))).
    replace (S (l - n - 1)) with (l - n)%nat by lia. replace (S (S (r - n - 2))) with (r - n)%nat by lia. rewrite <- app_assoc. f_equal. lia. }
  assert (E2 : at_return l r w (S n) = zip up (repeat (SInt 1) (l - n - 1) ++ map cellof (grown (rows w n))) (SInt 0 :: repeat (SInt 0) (r - n - 2))).
  { unfold at_return, zip, up. cbn [rows]. rewrite !app_length, map_length, repeat_length. change (length (grown (rows w n))) with (length (rows w (S n))). rewrite rows_length.
    change (SInt 0 :: repeat (SInt 0) (r - n - 2)) with (repeat (SInt 0) (S (r - n - 2))). replace (S (r - n - 2)) with (r - S n)%nat by lia. replace (l - n - 1)%nat with (l - S n)%nat by lia. rewrite <- app_assoc. f_equal. lia. }
  rewrite E1, E2. exact HR.
Qed.
Lemma return_time_S w n : return_time w (S n) = (return_time w n + (2 * (length w + 2 * n) + 3))%nat.
Proof. unfold return_time. nia. Qed.
Lemma returns l r w n : hd false w = false -> (n <= l)%nat -> (n < r)%nat -> reach nks25 (return_time w n) (at_return l r w 0) (at_return l r w n).
Proof.
  intros Hw. induction n as [|n IH]; intros Hl Hr; [replace (return_time w 0) with 0%nat by (unfold return_time; lia); constructor|].
  rewrite return_time_S. eapply reach_trans; [apply IH; lia|]. eapply upto_reach. apply return_step; [exact Hw|lia|lia].
Qed.
Lemma after_add table j k (c : conf Z sym) : after table (j + k) c = after table k (after table j c).
Proof. revert c. induction j as [|j IH]; intros c; [reflexivity|]. cbn [plus after]. apply IH. Qed.
Lemma between l r w n j : hd false w = false -> (n < l)%nat -> (n + 1 < r)%nat -> (return_time w n <= j < return_time w (S n))%nat ->
  cf_p (after nks25 j (at_return l r w 0)) <= Z.of_nat (l + length w + n).
Proof.
  intros Hw Hl Hr Hj. replace j with (return_time w n + (j - return_time w n))%nat by lia. rewrite after_add.
  rewrite (reach_after nks25 _ _ _ (returns l r w n Hw ltac:(lia) ltac:(lia))). rewrite return_time_S in Hj.
  apply (upto_pos _ _ _ _ (return_step l r w n Hw Hl Hr)). lia.
Qed.
