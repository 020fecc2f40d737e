(** The conditional distributions of a restricted Boltzmann machine are independent coins with the probabilities of the sigmoid. *)
From Coq Require Import Reals ZArith List Lia Lra.
From Verif Require Import RbmSpec.
Import ListNotations.
Open Scope list_scope.
Open Scope R_scope.

Lemma total_app l l' : total (l ++ l') = total l + total l'.
Proof. induction l as [|x l IH]; cbn; [fold (total l'); ring|]. fold (total (l ++ l')). fold (total l). rewrite IH. ring. Qed.
Lemma total_scale {X} (f : X -> R) k l : total (map (fun x => k * f x) l) = k * total (map f l).
Proof. induction l as [|x l IH]; cbn; [ring|]. fold (total (map (fun x => k * f x) l)). fold (total (map f l)). rewrite IH. ring. Qed.
Lemma total_plus {X} (f g : X -> R) l : total (map (fun x => f x + g x) l) = total (map f l) + total (map g l).
Proof. induction l as [|x l IH]; cbn; [ring|]. fold (total (map (fun x => f x + g x) l)). fold (total (map f l)). fold (total (map g l)). rewrite IH. ring. Qed.
Lemma total_ext {X} (f g : X -> R) l : (forall x, In x l -> f x = g x) -> total (map f l) = total (map g l).
Proof. intros E. f_equal. apply map_ext_in. assumption. Qed.
Lemma total_nonneg {X} (f : X -> R) l : (forall x, In x l -> 0 <= f x) -> 0 <= total (map f l).
Proof. induction l as [|x l IH]; intros Hf; [apply Rle_refl|]. cbn. apply Rplus_le_le_0_compat; [apply Hf; left; reflexivity|apply IH; intros y Hy; apply Hf; right; assumption]. Qed.
Lemma total_zero {X} (l : list X) : total (map (fun _ => 0) l) = 0.
Proof. induction l as [|x l IH]; [reflexivity|]. cbn. fold (total (map (fun _ : X => 0) l)). rewrite IH. ring. Qed.

Lemma length_bits n x : In x (bits n) -> length x = n.
Proof.
  revert x. induction n as [|n IH]; intros x; cbn [bits]; [intros [<-|[]]; reflexivity|]. rewrite in_app_iff, !in_map_iff.
  intros [(y & <- & Hy)|(y & <- & Hy)]; cbn [length]; rewrite (IH y Hy); reflexivity.
Qed.
Lemma in_bits n x : In x (bits n) <-> length x = n /\ Forall (fun z => z = 0%Z \/ z = 1%Z) x.
Proof.
  revert x. induction n as [|n IH]; intros x; cbn [bits].
  - split; [intros [<-|[]]; split; [reflexivity|constructor]|]. intros [Hl _]. destruct x; [left; reflexivity|discriminate].
  - rewrite in_app_iff, !in_map_iff. split.
    + intros [(y & <- & Hy)|(y & <- & Hy)]; apply IH in Hy; destruct Hy as [Hl Hf]; (split; [cbn [length]; congruence|constructor; auto]).
    + intros [Hl Hf]. destruct x as [|z x]; [discriminate|]. inversion Hf as [|? ? Hz Hf']; subst. injection Hl as Hl. destruct Hz as [-> | ->]; [left|right]; exists x; (split; [reflexivity|]); apply IH; auto.
Qed.

Lemma dot_cons a l z x : dot (a :: l) (z :: x) = a * IZR z + dot l x.
Proof. reflexivity. Qed.

(** ** Sums over all states *)
Lemma sum_bits f : total (map (fun x => exp (dot f x)) (bits (length f))) = product (map (fun a => 1 + exp a) f).
Proof.
  induction f as [|a f IH]; [cbn; unfold dot; cbn; rewrite exp_0; ring|]. cbn [length bits map]. rewrite map_app, total_app, !map_map.
  rewrite (total_ext (fun x => exp (dot (a :: f) (0%Z :: x))) (fun x => 1 * exp (dot f x))), (total_ext (fun x => exp (dot (a :: f) (1%Z :: x))) (fun x => exp a * exp (dot f x))).
  - rewrite !total_scale, IH. cbn [product fold_right]. fold (product (map (fun a => 1 + exp a) f)). ring.
  - intros x _. rewrite dot_cons, Rmult_1_r, exp_plus. reflexivity.
  - intros x _. rewrite dot_cons, Rmult_0_r, Rplus_0_l, Rmult_1_l. reflexivity.
Qed.
Lemma filter_map {X Y} (f : X -> Y) p l : filter p (map f l) = map f (filter (fun x => p (f x)) l).
Proof. induction l as [|x l IH]; [reflexivity|]. cbn [map filter]. destruct (p (f x)); cbn [map]; rewrite IH; reflexivity. Qed.
Lemma product_pos f : 0 < product (map (fun a => 1 + exp a) f).
Proof. induction f as [|a f IH]; cbn; [lra|]. apply Rmult_lt_0_compat; [|assumption]. pose proof (exp_pos a). lra. Qed.

Lemma sum_on f i : (i < length f)%nat ->
  total (map (fun x => exp (dot f x)) (filter (on i) (bits (length f)))) * (1 + exp (nth i f 0)) = exp (nth i f 0) * product (map (fun a => 1 + exp a) f).
Proof.
  revert i. induction f as [|a f IH]; intros i Hi; [cbn in Hi; lia|]. cbn [length bits map]. rewrite filter_app, map_app, total_app, !filter_map, !map_map.
  rewrite (total_ext (fun x => exp (dot (a :: f) (0%Z :: x))) (fun x => 1 * exp (dot f x))), (total_ext (fun x => exp (dot (a :: f) (1%Z :: x))) (fun x => exp a * exp (dot f x))); [|intros x _; rewrite dot_cons, Rmult_1_r, exp_plus; reflexivity|intros x _; rewrite dot_cons, Rmult_0_r, Rplus_0_l, Rmult_1_l; reflexivity].
  rewrite !total_scale. cbn [product fold_right]. fold (product (map (fun a => 1 + exp a) f)). destruct i as [|i].
  - unfold on. cbn [nth]. cbn [Z.eqb Pos.eqb].
    assert (E0 : forall l : list (list Z), filter (fun _ => false) l = []) by (induction l; [reflexivity|assumption]).
    assert (E1 : forall l : list (list Z), filter (fun _ => true) l = l) by (induction l as [|y l IHl]; [reflexivity|cbn; rewrite IHl; reflexivity]).
    rewrite E0, E1, sum_bits. cbn [map total fold_right]. ring.
  - change (fun x => on (S i) (0%Z :: x)) with (on i). change (fun x => on (S i) (1%Z :: x)) with (on i). cbn [nth length] in *. specialize (IH i ltac:(lia)).
    set (s := total (map (fun x => exp (dot f x)) (filter (on i) (bits (length f))))) in *. transitivity ((1 + exp a) * (s * (1 + exp (nth i f 0)))); [ring|]. rewrite IH. ring.
Qed.
Lemma ratio_on f i : (i < length f)%nat -> total (map (fun x => exp (dot f x)) (filter (on i) (bits (length f)))) / total (map (fun x => exp (dot f x)) (bits (length f))) = 1 / (1 + exp (- nth i f 0)).
Proof.
  intros Hi. rewrite sum_bits. pose proof (sum_on f i Hi) as E. pose proof (product_pos f) as Hp. pose proof (exp_pos (nth i f 0)) as He. rewrite exp_Ropp.
  set (s := total _) in *. set (e := exp (nth i f 0)) in *. set (q := product _) in *.
  apply (Rmult_eq_reg_r (q * (1 + e))); [|nra]. transitivity (s * (1 + e)); [field; lra|]. rewrite E. field. lra.
Qed.

(** ** The score, seen from either layer *)
(** the sum over the hidden units of the weights to unit [j] *)
Definition column (W : list (list R)) (h : list Z) (j : nat) : R := total (map (fun p => nth j (fst p) 0 * IZR (snd p)) (combine W h)).
  Lemma dot_seq l v : length v = length l -> dot l v = total (map (fun j => nth j l 0 * IZR (nth j v 0%Z)) (seq 0 (length l))).
  Proof.
    revert v. induction l as [|a l IH]; intros [|z v] Hl; try discriminate; [reflexivity|]. rewrite dot_cons. cbn [length seq map total fold_right nth]. f_equal.
    rewrite IH by (cbn in Hl; lia). rewrite <- seq_shift, map_map. reflexivity.
  Qed.
  Lemma dot_add n (f g : nat -> R) v : length v = n -> dot (map (fun j => f j + g j) (seq 0 n)) v = dot (map f (seq 0 n)) v + dot (map g (seq 0 n)) v.
  Proof.
    intros Hv. rewrite !dot_seq by (rewrite map_length, seq_length; assumption). rewrite !map_length, seq_length.
    rewrite <- total_plus. apply total_ext. intros j Hj. apply in_seq in Hj.
    assert (E : forall k : nat -> R, nth j (map k (seq 0 n)) 0 = k j) by (intros k; rewrite (nth_indep _ 0 (k 0%nat)) by (rewrite map_length, seq_length; lia); rewrite map_nth, seq_nth by lia; reflexivity).
    rewrite !E. ring.
  Qed.
  Lemma map_nth_seq {X} (l : list X) d : map (fun j => nth j l d) (seq 0 (length l)) = l.
  Proof. induction l as [|a l IH]; [reflexivity|]. cbn [length seq map nth]. f_equal. rewrite <- seq_shift, map_map. exact IH. Qed.

  Lemma product_coins (f : list R) x : length x = length f -> Forall (fun z => z = 0%Z \/ z = 1%Z) x ->
    product (map (fun i => bernoulli (1 / (1 + exp (- nth i f 0))) (nth i x 0%Z)) (seq 0 (length f))) * product (map (fun a => 1 + exp a) f) = exp (dot f x).
  Proof.
    revert x. induction f as [|a f IH]; intros x Hl Hx; destruct x as [|z x]; try discriminate; [cbn; unfold dot; cbn; rewrite exp_0; ring|].
    inversion Hx as [|? ? Hz Hx']; subst. cbn [length seq map product fold_right nth]. rewrite <- seq_shift, map_map. cbn [nth].
    specialize (IH x ltac:(cbn in Hl; lia) Hx'). fold (product (map (fun a => 1 + exp a) f)). fold (product (map (fun i => bernoulli (1 / (1 + exp (- nth i f 0))) (nth i x 0%Z)) (seq 0 (length f)))).
    rewrite dot_cons, exp_plus, <- IH. set (q := product _). set (q' := product _). pose proof (exp_pos a) as Ha. unfold bernoulli. rewrite exp_Ropp.
    destruct Hz as [-> | ->]; cbn [Z.eqb Pos.eqb]; [rewrite Rmult_0_r, exp_0|rewrite Rmult_1_r]; field; lra.
  Qed.
  Lemma product_ext {X} (f g : X -> R) l : (forall x, In x l -> f x = g x) -> product (map f l) = product (map g l).
  Proof. intros E. f_equal. apply map_ext_in. assumption. Qed.


Section Score.
  Context (W : list (list R)) (b c : list R).
  Hypothesis HW : length W = length c.
  Hypothesis Hrows : Forall (fun row => length row = length b) W.

  Definition hidden_field (v : list Z) : list R := map (fun p => fst p + dot (snd p) v) (combine c W).
  Definition visible_field (h : list Z) : list R := map (fun j => nth j b 0 + column W h j) (seq 0 (length b)).

  Lemma length_hidden_field v : length (hidden_field v) = length c.
  Proof. unfold hidden_field. rewrite map_length, combine_length, HW. apply Nat.min_id. Qed.
  Lemma length_visible_field h : length (visible_field h) = length b.
  Proof. unfold visible_field. rewrite map_length, seq_length. reflexivity. Qed.
  Lemma nth_hidden_field v i : (i < length c)%nat -> nth i (hidden_field v) 0 = nth i c 0 + dot (nth i W []) v.
  Proof.
    intros Hi. unfold hidden_field. rewrite (nth_indep _ 0 ((fun p => fst p + dot (snd p) v) (0, []))) by (rewrite map_length, combine_length, HW, Nat.min_id; assumption).
    rewrite (map_nth (fun p => fst p + dot (snd p) v)), combine_nth by (symmetry; assumption). reflexivity.
  Qed.
  Lemma nth_visible_field h j : (j < length b)%nat -> nth j (visible_field h) 0 = nth j b 0 + column W h j.
  Proof.
    intros Hj. unfold visible_field. rewrite (nth_indep _ 0 ((fun j => nth j b 0 + column W h j) 0%nat)) by (rewrite map_length, seq_length; assumption). rewrite (map_nth (fun j => nth j b 0 + column W h j)), seq_nth by assumption. reflexivity.
  Qed.

  Lemma score_hidden v h : length h = length c -> score W b c v h = dot b v + dot (hidden_field v) h.
  Proof.
    intros Hh. unfold score, hidden_field. rewrite Rplus_assoc. f_equal. clear Hrows. revert W h HW Hh. induction c as [|a c' IH]; intros W' h HW' Hh; destruct W' as [|r W']; try discriminate; destruct h as [|z h]; try discriminate.
    - cbn. unfold dot. cbn. ring.
    - cbn [combine map total fold_right fst snd]. rewrite !dot_cons. fold (total (map (fun p => IZR (snd p) * dot (fst p) v) (combine W' h))).
      rewrite <- (IH W' h) by (cbn in *; lia). ring.
  Qed.
  Lemma score_visible v h : length v = length b -> length h = length c -> score W b c v h = dot c h + dot (visible_field h) v.
  Proof.
    intros Hv Hh. unfold score, visible_field. rewrite dot_add by assumption. rewrite map_nth_seq.
    assert (E : total (map (fun p => IZR (snd p) * dot (fst p) v) (combine W h)) = dot (map (column W h) (seq 0 (length b))) v); [|rewrite E; ring].
    assert (Hl : length W = length h) by congruence. clear HW Hh c. revert h Hl. induction W as [|r W' IH]; intros [|z h] Hl; try discriminate.
    - cbn [combine map total fold_right]. rewrite dot_seq by (rewrite map_length, seq_length; assumption). rewrite map_length, seq_length. symmetry. etransitivity; [|apply (total_zero (seq 0 (length b)))]. apply total_ext. intros j Hj. apply in_seq in Hj.
      rewrite (nth_indep _ 0 (column [] [] 0%nat)) by (rewrite map_length, seq_length; lia). rewrite map_nth. unfold column. cbn. ring.
    - inversion Hrows as [|? ? Hr Hrs]; subst. cbn [combine map total fold_right fst snd]. fold (total (map (fun p => IZR (snd p) * dot (fst p) v) (combine W' h))).
      rewrite (IH Hrs h) by (cbn in Hl; lia). unfold column. cbn [combine map total fold_right fst snd].
      rewrite (dot_add (length b) (fun j => nth j r 0 * IZR z) (fun j => total (map (fun p => nth j (fst p) 0 * IZR (snd p)) (combine W' h)))) by assumption. f_equal.
      rewrite (dot_seq r) by congruence. rewrite dot_seq by (rewrite map_length, seq_length; assumption). rewrite map_length, seq_length, Hr, <- total_scale. apply total_ext. intros j Hj. apply in_seq in Hj.
      rewrite (nth_indep (map _ _) 0 ((fun j => nth j r 0 * IZR z) 0%nat)) by (rewrite map_length, seq_length; lia). rewrite (map_nth (fun j => nth j r 0 * IZR z)), seq_nth by lia. cbn [Nat.add]. ring.
  Qed.

  (** ** Conditional probabilities *)
  Lemma exp_split (f : list R) (k : R) (g : list Z -> R) xs : (forall x, In x xs -> g x = exp (k + dot f x)) -> total (map g xs) = exp k * total (map (fun x => exp (dot f x)) xs).
  Proof. intros E. rewrite (total_ext g (fun x => exp k * exp (dot f x))); [apply total_scale|]. intros x Hx. rewrite (E x Hx). apply exp_plus. Qed.

  Lemma hidden_on_eq v i : (i < length c)%nat -> hidden_on W b c v i = 1 / (1 + exp (- (nth i c 0 + dot (nth i W []) v))).
  Proof.
    intros Hi. unfold hidden_on. rewrite <- (nth_hidden_field v i Hi).
    assert (Hg : forall h, In h (bits (length c)) -> boltzmann W b c v h = exp (dot b v + dot (hidden_field v) h)) by (intros h Hh; unfold boltzmann; rewrite score_hidden by (apply length_bits; assumption); reflexivity).
    rewrite (exp_split (hidden_field v) (dot b v) _ (bits (length c)) Hg). rewrite (exp_split (hidden_field v) (dot b v) _ (filter (on i) (bits (length c)))) by (intros h Hh; apply filter_In in Hh; apply Hg; tauto).
    rewrite <- (ratio_on (hidden_field v) i) by (rewrite length_hidden_field; assumption). rewrite length_hidden_field. field.
    split; [|apply Rgt_not_eq, exp_pos]. rewrite <- (length_hidden_field v), sum_bits. apply Rgt_not_eq, product_pos.
  Qed.
  Lemma visible_on_eq h j : (j < length b)%nat -> length h = length c -> visible_on W b c h j = 1 / (1 + exp (- (nth j b 0 + column W h j))).
  Proof.
    intros Hj Hh. unfold visible_on. rewrite <- (nth_visible_field h j Hj).
    assert (Hg : forall v, In v (bits (length b)) -> boltzmann W b c v h = exp (dot c h + dot (visible_field h) v)) by (intros v Hv; unfold boltzmann; rewrite score_visible by (try assumption; apply length_bits; assumption); reflexivity).
    rewrite (exp_split (visible_field h) (dot c h) _ (bits (length b)) Hg). rewrite (exp_split (visible_field h) (dot c h) _ (filter (on j) (bits (length b)))) by (intros v Hv; apply filter_In in Hv; apply Hg; tauto).
    rewrite <- (ratio_on (visible_field h) j) by (rewrite length_visible_field; assumption). rewrite length_visible_field. field.
    split; [|apply Rgt_not_eq, exp_pos]. rewrite <- (length_visible_field h), sum_bits. apply Rgt_not_eq, product_pos.
  Qed.

  (** ** Independence: the kernels are the conditional distributions *)
  Lemma hidden_kernel_eq v h' : In h' (bits (length c)) -> hidden_kernel W b c v h' * total (map (boltzmann W b c v) (bits (length c))) = boltzmann W b c v h'.
  Proof.
    intros Hh. pose proof (proj1 (in_bits _ _) Hh) as [Hl Hf]. unfold boltzmann at 2. rewrite score_hidden by assumption.
    rewrite (exp_split (hidden_field v) (dot b v)) by (intros h Hx; unfold boltzmann; rewrite score_hidden by (apply length_bits; assumption); reflexivity).
    rewrite exp_plus. rewrite <- (product_coins (hidden_field v) h') by (try rewrite length_hidden_field; assumption). rewrite <- (length_hidden_field v) at 1. rewrite sum_bits.
    unfold hidden_kernel. rewrite length_hidden_field. rewrite (product_ext _ (fun i => bernoulli (1 / (1 + exp (- nth i (hidden_field v) 0))) (nth i h' 0%Z))); [ring|].
    intros i Hi. apply in_seq in Hi. rewrite hidden_on_eq, nth_hidden_field by lia. reflexivity.
  Qed.
  Lemma visible_kernel_eq h v' : length h = length c -> In v' (bits (length b)) -> visible_kernel W b c h v' * total (map (fun v => boltzmann W b c v h) (bits (length b))) = boltzmann W b c v' h.
  Proof.
    intros Hh Hv. pose proof (proj1 (in_bits _ _) Hv) as [Hl Hf]. unfold boltzmann at 2. rewrite score_visible by assumption.
    rewrite (exp_split (visible_field h) (dot c h)) by (intros v Hx; unfold boltzmann; rewrite score_visible by (try assumption; apply length_bits; assumption); reflexivity).
    rewrite exp_plus. rewrite <- (product_coins (visible_field h) v') by (try rewrite length_visible_field; assumption). rewrite <- (length_visible_field h) at 1. rewrite sum_bits.
    unfold visible_kernel. rewrite length_visible_field. rewrite (product_ext _ (fun i => bernoulli (1 / (1 + exp (- nth i (visible_field h) 0))) (nth i v' 0%Z))); [ring|].
    intros i Hi. apply in_seq in Hi. rewrite visible_on_eq, nth_visible_field by (lia || assumption). reflexivity.
  Qed.

  Lemma total_pos {X} (f : X -> R) l : l <> [] -> (forall x, 0 < f x) -> 0 < total (map f l).
  Proof.
    intros Hl Hf. destruct l as [|x l]; [congruence|]. cbn. apply Rplus_lt_le_0_compat; [apply Hf|]. apply total_nonneg. intros y _. apply Rlt_le, Hf.
  Qed.
  Lemma bits_nonempty n : bits n <> [].
  Proof. induction n as [|n IH]; cbn [bits]; [discriminate|]. destruct (bits n); [congruence|discriminate]. Qed.
  Lemma boltzmann_pos v h : 0 < boltzmann W b c v h.
  Proof. apply exp_pos. Qed.
  Lemma partition_pos : 0 < partition W b c.
  Proof. apply total_pos; [apply bits_nonempty|]. intros v. apply total_pos; [apply bits_nonempty|]. intros h. apply boltzmann_pos. Qed.
  Lemma total_div {X} (f : X -> R) k l : total (map (fun x => f x / k) l) = total (map f l) / k.
  Proof. unfold Rdiv. rewrite (Rmult_comm (total _)). rewrite <- total_scale. apply total_ext. intros x _. ring. Qed.
  Lemma total_swap {X Y} (f : X -> Y -> R) xs ys : total (map (fun x => total (map (f x) ys)) xs) = total (map (fun y => total (map (fun x => f x y) xs)) ys).
  Proof.
    induction xs as [|x xs IH]; cbn [map]; [symmetry; apply (total_zero ys)|]. cbn [total fold_right]. fold (total (map (fun x => total (map (f x) ys)) xs)). rewrite IH.
    rewrite <- total_plus. reflexivity.
  Qed.
End Score.
