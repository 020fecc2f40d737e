(** Computing with CTRBL tables: a tree for the table, grids on a torus. *)
From Verif Require Import Py PyFacts ListFacts CtrblSpec.
Open Scope Z_scope.

(** ** the table as a tree *)
Inductive tree := Leaf (v : option Z) | Node (t0 t1 t2 t3 t4 t5 t6 t7 : tree).
Definition tails (tb : list (list Z * Z)) (c : Z) : list (list Z * Z) := flat_map (fun e => match fst e with x :: k => if x =? c then [(k, snd e)] else [] | [] => [] end) tb.
Fixpoint build (d : nat) (tb : list (list Z * Z)) : tree :=
  match d, tb with
  | O, _ => Leaf (match tb with [] => None | (_, v) :: _ => Some v end)
  | _, [] => Leaf None
  | S d, _ => Node (build d (tails tb 0)) (build d (tails tb 1)) (build d (tails tb 2)) (build d (tails tb 3)) (build d (tails tb 4)) (build d (tails tb 5)) (build d (tails tb 6)) (build d (tails tb 7))
  end.
Fixpoint find (tr : tree) (k : list Z) : option Z :=
  match tr, k with
  | Leaf v, [] => v
  | Node t0 t1 t2 t3 t4 t5 t6 t7, c :: k =>
      match c with 0 => find t0 k | 1 => find t1 k | 2 => find t2 k | 3 => find t3 k | 4 => find t4 k | 5 => find t5 k | 6 => find t6 k | 7 => find t7 k | _ => None end
  | _, _ => None
  end.

Lemma dget_tails (tb : list (list Z * Z)) c k : dget (tails tb c) k = dget tb (c :: k).
Proof.
  unfold tails. induction tb as [|[k0 v] tb IH]; [reflexivity|]. cbn [flat_map fst snd dget]. destruct k0 as [|x k0]; [destruct (eqd (c :: k) []); [discriminate|exact IH]|].
  destruct (Z.eqb_spec x c) as [->|Hne]; cbn [app dget].
  - destruct (eqd k k0) as [H1|H1], (eqd (c :: k) (c :: k0)) as [H2|H2]; try reflexivity; try exact IH; congruence.
  - destruct (eqd (c :: k) (x :: k0)) as [E|E]; [congruence|exact IH].
Qed.
Lemma tails_len d tb c : Forall (fun e : list Z * Z => length (fst e) = S d) tb -> Forall (fun e => length (fst e) = d) (tails tb c).
Proof.
  intros Hf. rewrite Forall_forall in *. intros e He. unfold tails in He. apply in_flat_map in He. destruct He as ([k v] & Hk & He). specialize (Hf _ Hk). cbn in *. destruct k as [|x k]; [destruct He|]. destruct (x =? c); [|destruct He]. destruct He as [<-|[]]. cbn in *. lia.
Qed.

Lemma find_build d : forall tb k v, Forall (fun e : list Z * Z => length (fst e) = d) tb -> find (build d tb) k = Some v -> dget tb k = Some v.
Proof.
  induction d as [|d IH]; intros tb k v Hf E.
  - destruct k as [|c k]; [|discriminate]. cbn in E. destruct tb as [|[k0 v0] tb]; [discriminate|]. injection E as <-. apply Forall_inv in Hf. cbn in Hf. destruct k0; [|discriminate]. reflexivity.
  - destruct tb as [|e tb]; [destruct k; discriminate|]. set (tb1 := e :: tb) in *. destruct k as [|c k]; [discriminate|]. change (build (S d) tb1) with (Node (build d (tails tb1 0)) (build d (tails tb1 1)) (build d (tails tb1 2)) (build d (tails tb1 3)) (build d (tails tb1 4)) (build d (tails tb1 5)) (build d (tails tb1 6)) (build d (tails tb1 7))) in E. cbn [find] in E. clearbody tb1. rename tb into tb0. rename tb1 into tb. assert (H : find (build d (tails tb c)) k = Some v).
    { destruct c as [|p|p]; [exact E| |discriminate]. destruct p as [[[p|p|]|[p|p|]|]|[[p|p|]|[p|p|]|]|]; try discriminate; exact E. }
    apply IH in H; [|apply tails_len; assumption]. rewrite dget_tails in H. assumption.
Qed.
Lemma find_build_none d : forall tb k, Forall (fun e : list Z * Z => length (fst e) = d) tb -> (forall e s, In e tb -> In s (fst e) -> 0 <= s <= 7) -> length k = d -> find (build d tb) k = None -> dget tb k = None.
Proof.
  induction d as [|d IH]; intros tb k Hf Hr Hk E.
  - destruct k; [|discriminate]. cbn in E. destruct tb as [|[k0 v0] tb]; [reflexivity|discriminate].
  - destruct tb as [|e tb]; [reflexivity|]. set (tb1 := e :: tb) in *. destruct k as [|c k]; [discriminate|]. injection Hk as Hk. change (build (S d) tb1) with (Node (build d (tails tb1 0)) (build d (tails tb1 1)) (build d (tails tb1 2)) (build d (tails tb1 3)) (build d (tails tb1 4)) (build d (tails tb1 5)) (build d (tails tb1 6)) (build d (tails tb1 7))) in E. cbn [find] in E. clearbody tb1. rename tb into tb0. rename tb1 into tb. destruct (dget tb (c :: k)) as [v|] eqn:Ed; [|reflexivity]. exfalso.
    assert (Hc : 0 <= c <= 7). { apply dget_some_in in Ed. apply (Hr _ c Ed). left. reflexivity. }
    assert (H : find (build d (tails tb c)) k = None). { assert (c = 0 \/ c = 1 \/ c = 2 \/ c = 3 \/ c = 4 \/ c = 5 \/ c = 6 \/ c = 7) as Hd by lia. destruct Hd as [->|[->|[->|[->|[->|[->|[->| ->]]]]]]]; exact E. }
    apply IH in H; [rewrite dget_tails in H; congruence|apply tails_len; assumption| |assumption].
    intros [k' v'] s He Hs. unfold tails in He. apply in_flat_map in He. destruct He as ([k1 v1] & Hk1 & He). cbn in He. destruct k1 as [|x k1]; [destruct He|]. destruct (x =? c); [|destruct He]. destruct He as [He|[]]. injection He as -> ->. apply (Hr _ s Hk1). right. exact Hs.
Qed.

(** ** one step on a torus *)
Definition rotl {X} (l : list X) : list X := match l with [] => [] | x :: r => r ++ [x] end.
Definition rotr {X} (d : X) (l : list X) : list X := match l with [] => [] | _ => last l d :: removelast l end.

Fixpoint row_next (tr : tree) (cs ts rs bs ls : list Z) : option (list Z) :=
  match cs, ts, rs, bs, ls with
  | [], _, _, _, _ => Some []
  | c :: cs, t :: ts, r :: rs, b :: bs, l :: ls =>
      match find tr [c; t; r; b; l] with
      | Some v => match row_next tr cs ts rs bs ls with Some out => Some (v :: out) | None => None end
      | None => None
      end
  | _, _, _, _, _ => None
  end.
Fixpoint rows_next (tr : tree) (cs ts bs : list (list Z)) : option (list (list Z)) :=
  match cs, ts, bs with
  | [], _, _ => Some []
  | c :: cs, t :: ts, b :: bs =>
      match row_next tr c t (rotl c) b (rotr 0 c) with
      | Some v => match rows_next tr cs ts bs with Some out => Some (v :: out) | None => None end
      | None => None
      end
  | _, _, _ => None
  end.
Definition gstep (tr : tree) (g : list (list Z)) : option (list (list Z)) := rows_next tr g (rotr [] g) (rotl g).

Definition at2 (g : list (list Z)) (a b : Z) : Z := nth (Z.to_nat b) (nth (Z.to_nat a) g []) 0.
Definition dims (rows cols : Z) (g : list (list Z)) : Prop := Z.of_nat (length g) = rows /\ Forall (fun r => Z.of_nat (length r) = cols) g.

Lemma length_rotl {X} (l : list X) : length (rotl l) = length l.
Proof. destruct l; cbn; [reflexivity|]. rewrite app_length. cbn. lia. Qed.
Lemma length_rotr {X} (d : X) l : length (rotr d l) = length l.
Proof. destruct l as [|x l]; [reflexivity|]. unfold rotr. cbn [length]. f_equal. assert (E := app_removelast_last d (l := x :: l) ltac:(discriminate)). apply (f_equal (@length _)) in E. rewrite app_length in E. cbn [length] in E. lia. Qed.
Lemma nth_rotl {X} (d : X) l i : 0 <= i < Z.of_nat (length l) -> nth (Z.to_nat i) (rotl l) d = nth (Z.to_nat ((i + 1) mod Z.of_nat (length l))) l d.
Proof.
  intros Hi. destruct l as [|x l]; [cbn in Hi; lia|]. cbn [rotl length] in *. destruct (Z.eq_dec i (Z.of_nat (length l))) as [->|Hne].
  - replace (Z.of_nat (length l) + 1) with (Z.of_nat (S (length l))) by lia. rewrite Z.mod_same by lia. rewrite app_nth2 by lia. replace (Z.to_nat (Z.of_nat (length l)) - length l)%nat with 0%nat by lia. reflexivity.
  - rewrite Z.mod_small by lia. rewrite app_nth1 by lia. replace (Z.to_nat (i + 1)) with (S (Z.to_nat i)) by lia. reflexivity.
Qed.
Lemma nth_rotr {X} (d : X) l i : 0 <= i < Z.of_nat (length l) -> nth (Z.to_nat i) (rotr d l) d = nth (Z.to_nat ((i - 1) mod Z.of_nat (length l))) l d.
Proof.
  intros Hi. assert (Hl : l <> []) by (intros ->; cbn in Hi; lia). assert (E := app_removelast_last d Hl). set (m := removelast l) in *. assert (Hlen : length l = S (length m)) by (rewrite E, app_length; cbn; lia).
  assert (Er : rotr d l = last l d :: m) by (destruct l; [congruence|reflexivity]). rewrite Er, Hlen. rewrite Hlen in Hi. destruct (Z.eq_dec i 0) as [->|Hne].
  - cbn [Z.to_nat nth]. replace (0 - 1) with (-1) by lia. rewrite <- (Z.mod_unique (-1) (Z.of_nat (S (length m))) (-1) (Z.of_nat (length m))) by lia. rewrite Nat2Z.id. symmetry. transitivity (nth (length m) (m ++ [last l d]) d); [f_equal; exact E|]. rewrite app_nth2, Nat.sub_diag by lia. reflexivity.
  - rewrite Z.mod_small by lia. replace (Z.to_nat i) with (S (Z.to_nat (i - 1))) by lia. cbn [nth]. symmetry. transitivity (nth (Z.to_nat (i - 1)) (m ++ [last l d]) d); [f_equal; exact E|]. rewrite app_nth1 by lia. reflexivity.
Qed.

Lemma row_next_ok tr : forall cs ts rs bs ls out, row_next tr cs ts rs bs ls = Some out -> length out = length cs /\
  forall i, (i < length cs)%nat -> find tr [nth i cs 0; nth i ts 0; nth i rs 0; nth i bs 0; nth i ls 0] = Some (nth i out 0).
Proof.
  induction cs as [|c cs IH]; intros ts rs bs ls out E; [injection E as <-; split; [reflexivity|cbn; lia]|]. cbn [row_next] in E. destruct ts as [|t ts], rs as [|r rs], bs as [|b bs], ls as [|l ls]; try discriminate.
  destruct (find tr [c; t; r; b; l]) as [v|] eqn:Ev; [|discriminate]. destruct (row_next tr cs ts rs bs ls) as [o|] eqn:Eo; [|discriminate]. injection E as <-. destruct (IH _ _ _ _ _ Eo) as [H1 H2]. split; [cbn; lia|].
  intros [|i] Hi; [exact Ev|]. cbn [nth length] in *. apply H2. lia.
Qed.
Lemma row_next_none tr : forall cs ts rs bs ls, length ts = length cs -> length rs = length cs -> length bs = length cs -> length ls = length cs -> row_next tr cs ts rs bs ls = None ->
  exists i, (i < length cs)%nat /\ find tr [nth i cs 0; nth i ts 0; nth i rs 0; nth i bs 0; nth i ls 0] = None.
Proof.
  induction cs as [|c cs IH]; intros ts rs bs ls H1 H2 H3 H4 E; [discriminate|]. destruct ts as [|t ts], rs as [|r rs], bs as [|b bs], ls as [|l ls]; try discriminate. cbn [row_next length] in *.
  destruct (find tr [c; t; r; b; l]) as [v|] eqn:Ev; [|exists 0%nat; split; [lia|exact Ev]]. destruct (row_next tr cs ts rs bs ls) as [o|] eqn:Eo; [discriminate|]. destruct (IH ts rs bs ls) as (i & Hi & Ei); try lia; [exact Eo|]. exists (S i). split; [lia|exact Ei].
Qed.
Lemma rows_next_ok tr : forall cs ts bs out, rows_next tr cs ts bs = Some out -> length out = length cs /\
  forall i, (i < length cs)%nat -> row_next tr (nth i cs []) (nth i ts []) (rotl (nth i cs [])) (nth i bs []) (rotr 0 (nth i cs [])) = Some (nth i out []).
Proof.
  induction cs as [|c cs IH]; intros ts bs out E; [injection E as <-; split; [reflexivity|cbn; lia]|]. cbn [rows_next] in E. destruct ts as [|t ts], bs as [|b bs]; try discriminate.
  destruct (row_next tr c t _ b _) as [v|] eqn:Ev; [|discriminate]. destruct (rows_next tr cs ts bs) as [o|] eqn:Eo; [|discriminate]. injection E as <-. destruct (IH _ _ _ Eo) as [H1 H2]. split; [cbn; lia|].
  intros [|i] Hi; [exact Ev|]. cbn [nth length] in *. apply H2. lia.
Qed.
Lemma rows_next_none tr : forall cs ts bs, length ts = length cs -> length bs = length cs -> rows_next tr cs ts bs = None ->
  exists i, (i < length cs)%nat /\ row_next tr (nth i cs []) (nth i ts []) (rotl (nth i cs [])) (nth i bs []) (rotr 0 (nth i cs [])) = None.
Proof.
  induction cs as [|c cs IH]; intros ts bs H1 H2 E; [discriminate|]. destruct ts as [|t ts], bs as [|b bs]; try discriminate. cbn [rows_next length] in *.
  destruct (row_next tr c t _ b _) as [v|] eqn:Ev; [|exists 0%nat; split; [lia|exact Ev]]. destruct (rows_next tr cs ts bs) as [o|] eqn:Eo; [discriminate|]. destruct (IH ts bs) as (i & Hi & Ei); try lia; [exact Eo|]. exists (S i). split; [lia|exact Ei].
Qed.

Section Torus.
  Context (rows cols : Z) (tr : tree).
  Hypothesis Hr : 0 < rows.
  Hypothesis Hc : 0 < cols.
  (** the key at a cell of the torus *)
  Definition key_at (g : list (list Z)) (a b : Z) : list Z := [at2 g a b; at2 g ((a - 1) mod rows) b; at2 g a ((b + 1) mod cols); at2 g ((a + 1) mod rows) b; at2 g a ((b - 1) mod cols)].

  Lemma dims_row g a : dims rows cols g -> 0 <= a < rows -> Z.of_nat (length (nth (Z.to_nat a) g [])) = cols.
  Proof. intros [H1 H2] Ha. rewrite Forall_forall in H2. apply H2, nth_In. lia. Qed.

  Lemma rotated g a b : dims rows cols g -> 0 <= a < rows -> 0 <= b < cols ->
    [nth (Z.to_nat b) (nth (Z.to_nat a) g []) 0; nth (Z.to_nat b) (nth (Z.to_nat a) (rotr [] g) []) 0; nth (Z.to_nat b) (rotl (nth (Z.to_nat a) g [])) 0; nth (Z.to_nat b) (nth (Z.to_nat a) (rotl g) []) 0; nth (Z.to_nat b) (rotr 0 (nth (Z.to_nat a) g [])) 0] = key_at g a b.
  Proof.
    intros Hd Ha Hb. pose proof (dims_row g a Hd Ha) as Hrow. destruct Hd as [H1 H2]. rewrite nth_rotr by lia. rewrite nth_rotl by lia. rewrite nth_rotl by lia. rewrite nth_rotr by lia. rewrite H1, Hrow. reflexivity.
  Qed.

  Lemma gstep_ok g g' : dims rows cols g -> gstep tr g = Some g' -> dims rows cols g' /\ forall a b, 0 <= a < rows -> 0 <= b < cols -> find tr (key_at g a b) = Some (at2 g' a b).
  Proof.
    intros Hd E. apply rows_next_ok in E. destruct E as [E1 E2]. split.
    - destruct Hd as [H1 H2]. split; [lia|]. apply Forall_forall. intros r Hin. destruct (In_nth g' r [] Hin) as (i & Hi & <-). rewrite E1 in Hi. specialize (E2 i Hi). apply row_next_ok in E2. destruct E2 as [-> _].
      pose proof (dims_row g (Z.of_nat i) (conj H1 H2) ltac:(lia)) as Hx. rewrite Nat2Z.id in Hx. assumption.
    - intros a b Ha Hb. assert (Hi : (Z.to_nat a < length g)%nat) by (destruct Hd; lia). specialize (E2 _ Hi). apply row_next_ok in E2. destruct E2 as [_ E2]. pose proof (dims_row g a Hd Ha) as Hrow. specialize (E2 (Z.to_nat b) ltac:(lia)).
      rewrite rotated in E2 by assumption. exact E2.
  Qed.
  Lemma gstep_none g : dims rows cols g -> gstep tr g = None -> exists a b, 0 <= a < rows /\ 0 <= b < cols /\ find tr (key_at g a b) = None.
  Proof.
    intros Hd E. apply rows_next_none in E; [|apply length_rotr|apply length_rotl]. destruct E as (i & Hi & E). pose proof Hd as [H1 H2]. assert (Ha : 0 <= Z.of_nat i < rows) by lia. pose proof (dims_row g _ Hd Ha) as Hrow. rewrite Nat2Z.id in Hrow.
    assert (Hrows : forall j, (j < length g)%nat -> Z.of_nat (length (nth j g [])) = cols) by (intros j Hj; pose proof (dims_row g (Z.of_nat j) Hd ltac:(lia)) as Hx; rewrite Nat2Z.id in Hx; assumption).
    apply row_next_none in E.
    - destruct E as (j & Hj & E). exists (Z.of_nat i), (Z.of_nat j). split; [lia|]. split; [lia|]. rewrite <- rotated by (assumption || lia). rewrite !Nat2Z.id. exact E.
    - replace i with (Z.to_nat (Z.of_nat i)) at 1 by lia. rewrite nth_rotr by lia. pose proof (Z.mod_pos_bound (Z.of_nat i - 1) (Z.of_nat (length g)) ltac:(lia)). pose proof (Hrows (Z.to_nat ((Z.of_nat i - 1) mod Z.of_nat (length g))) ltac:(lia)). lia.
    - apply length_rotl.
    - replace i with (Z.to_nat (Z.of_nat i)) at 1 by lia. rewrite nth_rotl by lia. pose proof (Z.mod_pos_bound (Z.of_nat i + 1) (Z.of_nat (length g)) ltac:(lia)). pose proof (Hrows (Z.to_nat ((Z.of_nat i + 1) mod Z.of_nat (length g))) ltac:(lia)). lia.
    - apply length_rotr.
  Qed.
End Torus.

(** ** films: lists of grids *)
Fixpoint frames (tr : tree) (n : nat) (g : list (list Z)) : list (list (list Z)) :=
  g :: match n with O => [] | S n => match gstep tr g with Some g' => frames tr n g' | None => [] end end.

Lemma frames_at tr : forall n g t, (S t < length (frames tr n g))%nat -> gstep tr (nth t (frames tr n g) []) = Some (nth (S t) (frames tr n g) []).
Proof.
  induction n as [|n IH]; intros g t Ht; [cbn in Ht; lia|]. cbn [frames] in *. destruct (gstep tr g) as [g'|] eqn:E; [|cbn in Ht; lia]. destruct t as [|t].
  - cbn [nth]. rewrite E. destruct n; reflexivity.
  - cbn [nth length] in *. apply IH. lia.
Qed.
Lemma frames_zero tr n g : nth 0 (frames tr n g) [] = g.
Proof. destruct n; reflexivity. Qed.
Lemma frames_dims rows cols tr n g : 0 < rows -> 0 < cols -> dims rows cols g -> forall t, (t < length (frames tr n g))%nat -> dims rows cols (nth t (frames tr n g) []).
Proof.
  intros Hr Hc Hg. induction t as [|t IH]; intros Ht; [rewrite frames_zero; assumption|]. apply (gstep_ok rows cols tr Hr Hc (nth t (frames tr n g) [])); [apply IH; lia|]. apply frames_at. assumption.
Qed.

(** nothing but zeros outside rows lo .. hi - 1 and columns lc .. hc - 1 *)
Definition zeros (l : list Z) : bool := forallb (Z.eqb 0) l.
Definition inside (lo hi lc hc : nat) (g : list (list Z)) : bool :=
  forallb zeros (firstn lo g) && forallb zeros (skipn hi g) && forallb (fun r => zeros (firstn lc r) && zeros (skipn hc r)) g.
Lemma zeros_nth l i : zeros l = true -> nth i l 0 = 0.
Proof. intros H. destruct (lt_dec i (length l)); [|apply nth_overflow; lia]. unfold zeros in H. rewrite forallb_forall in H. symmetry. apply Z.eqb_eq, H, nth_In. assumption. Qed.
Lemma nth_skipn {X} (d : X) : forall n l i, nth i (skipn n l) d = nth (n + i) l d.
Proof. induction n as [|n IH]; intros l i; [reflexivity|]. destruct l; [destruct i; reflexivity|]. apply IH. Qed.
Lemma nth_firstn_lt {X} (d : X) : forall n l i, (i < n)%nat -> nth i (firstn n l) d = nth i l d.
Proof. induction n as [|n IH]; intros l i Hi; [lia|]. destruct l; [destruct i; reflexivity|]. destruct i; [reflexivity|]. cbn. apply IH. lia. Qed.
Lemma zeros_row l i : forallb zeros l = true -> forall j, nth j (nth i l []) 0 = 0.
Proof. intros H j. destruct (lt_dec i (length l)); [|rewrite (nth_overflow l) by lia; destruct j; reflexivity]. rewrite forallb_forall in H. apply zeros_nth, H, nth_In. assumption. Qed.
Lemma inside_nth lo hi lc hc g i j : inside lo hi lc hc g = true -> nth j (nth i g []) 0 <> 0 -> (lo <= i < hi /\ lc <= j < hc)%nat.
Proof.
  unfold inside. intros H Hne. apply andb_prop in H. destruct H as [H H3]. apply andb_prop in H. destruct H as [H1 H2].
  assert (Hi : (i < length g)%nat) by (destruct (lt_dec i (length g)); [assumption|]; exfalso; apply Hne; rewrite (nth_overflow g) by lia; destruct j; reflexivity).
  rewrite forallb_forall in H3. specialize (H3 _ (nth_In g [] Hi)). apply andb_prop in H3. destruct H3 as [H3 H4].
  destruct (le_lt_dec lo i) as [G1|G1]; [|exfalso; apply Hne; rewrite <- (nth_firstn_lt [] lo g i G1); apply zeros_row; assumption].
  destruct (le_lt_dec hi i) as [G2|G2]; [exfalso; apply Hne; replace i with (hi + (i - hi))%nat by lia; rewrite <- nth_skipn; apply zeros_row; assumption|].
  destruct (le_lt_dec lc j) as [G3|G3]; [|exfalso; apply Hne; rewrite <- (nth_firstn_lt 0 lc _ j G3); apply zeros_nth; assumption].
  destruct (le_lt_dec hc j) as [G4|G4]; [exfalso; apply Hne; replace j with (hc + (j - hc))%nat by lia; rewrite <- nth_skipn; apply zeros_nth; assumption|]. lia.
Qed.

(** [c] is the sum of [a] and [b], cell by cell; missing cells are 0 *)
Definition none {X} (l : list X) : bool := match l with [] => true | _ => false end.
Fixpoint sum_row (n : nat) (a b c : list Z) : bool :=
  match n with O => none a && none b && none c | S n => (hd 0 c =? hd 0 a + hd 0 b) && sum_row n (tl a) (tl b) (tl c) end.
Fixpoint sum_rows (m n : nat) (a b c : list (list Z)) : bool :=
  match m with O => none a && none b && none c | S m => sum_row n (hd [] a) (hd [] b) (hd [] c) && sum_rows m n (tl a) (tl b) (tl c) end.
Lemma sum_row_nth : forall n a b c i, sum_row n a b c = true -> nth i c 0 = nth i a 0 + nth i b 0.
Proof.
  induction n as [|n IH]; intros a b c i H; cbn [sum_row] in H.
  - destruct a, b, c; try discriminate. destruct i; reflexivity.
  - apply andb_prop in H. destruct H as [H1 H2]. apply Z.eqb_eq in H1. destruct i as [|i]; [destruct a, b, c; exact H1|]. apply (IH _ _ _ i) in H2. destruct a, b, c; cbn in *; destruct i; exact H2.
Qed.
Lemma sum_rows_nth : forall m n a b c i j, sum_rows m n a b c = true -> nth j (nth i c []) 0 = nth j (nth i a []) 0 + nth j (nth i b []) 0.
Proof.
  induction m as [|m IH]; intros n a b c i j H; cbn [sum_rows] in H.
  - destruct a, b, c; try discriminate. destruct i, j; reflexivity.
  - apply andb_prop in H. destruct H as [H1 H2]. destruct i as [|i]; [apply (sum_row_nth _ _ _ _ j) in H1; destruct a, b, c; exact H1|]. apply (IH _ _ _ _ i j) in H2. destruct a, b, c; cbn in *; destruct i; exact H2.
Qed.

(** rows and columns of zeros before a grid *)
Definition shifted (top left : nat) (g : list (list Z)) : list (list Z) := repeat [] top ++ map (fun r => repeat 0 left ++ r) g.
Lemma nth_prefix {X} (d : X) n l i : nth i (repeat d n ++ l) d = if (i <? n)%nat then d else nth (i - n) l d.
Proof.
  destruct (Nat.ltb_spec i n) as [H|H]; [rewrite app_nth1 by (rewrite repeat_length; lia)|rewrite app_nth2, repeat_length by (rewrite repeat_length; lia); reflexivity].
  revert i H. induction n as [|n IH]; intros i H; [lia|]. destruct i; [reflexivity|]. apply IH. lia.
Qed.
Lemma shifted_nth top left g i j : nth j (nth i (shifted top left g) []) 0 = if (i <? top)%nat || (j <? left)%nat then 0 else nth (j - left) (nth (i - top) g []) 0.
Proof.
  unfold shifted. rewrite nth_prefix. destruct (Nat.ltb_spec i top); cbn [orb]; [destruct j; reflexivity|]. destruct (lt_dec (i - top) (length g)) as [H1|H1].
  - rewrite (nth_indep _ [] (repeat 0 left ++ [])) by (rewrite map_length; assumption). rewrite (map_nth (fun r => repeat 0 left ++ r)). apply nth_prefix.
  - rewrite (nth_overflow (map _ g)) by (rewrite map_length; lia). rewrite (nth_overflow g) by lia. destruct (j <? left)%nat; [destruct j; reflexivity|]. destruct j; destruct (_ - left)%nat; reflexivity.
Qed.
(** a grid of [w] columns, turned anti-clockwise *)
Definition left_turn (w : nat) (g : list (list Z)) : list (list Z) := map (fun i => map (fun r => nth (w - 1 - i) r 0) g) (seq 0 w).
Lemma left_turn_nth w g i j : nth j (nth i (left_turn w g) []) 0 = if (i <? w)%nat then nth (w - 1 - i) (nth j g []) 0 else 0.
Proof.
  unfold left_turn. destruct (Nat.ltb_spec i w) as [H|H]; [|rewrite (nth_overflow (map _ (seq 0 w))) by (rewrite map_length, seq_length; lia); destruct j; reflexivity].
  rewrite (nth_indep _ [] ((fun i => map (fun r => nth (w - 1 - i) r 0) g) 0%nat)) by (rewrite map_length, seq_length; lia). rewrite (map_nth (fun i => map (fun r => nth (w - 1 - i) r 0) g)), seq_nth by lia. cbn [Nat.add].
  transitivity (nth j (map (fun r => nth (w - 1 - i) r 0) g) ((fun r => nth (w - 1 - i) r 0) [])); [f_equal; destruct (w - 1 - i)%nat; reflexivity|]. apply (map_nth (fun r => nth (w - 1 - i) r 0)).
Qed.
