(** * Running the substitution system scripts *)
From Coq Require Import Ascii Lia.
From Verif Require Import Py PyFacts ListFacts Network Evolve EvolveStatic SubstSpec Subst SubstProofs2 PropSubst SubstDemoSpec SubstDemos.
Open Scope string_scope.
Open Scope list_scope.
Open Scope Z_scope.

Definition dig (z : Z) : ascii := ascii_of_nat (48 + Z.to_nat z).
Definition is_digit (z : Z) : Prop := 0 <= z <= 9.
Lemma int_conv_dig z : is_digit z -> int_conv (dig z) = Ok z.
Proof.
  intros Hz. unfold is_digit in Hz. unfold int_conv, dig. rewrite nat_ascii_embedding by lia. replace (Z.of_nat (48 + Z.to_nat z) - 48) with z by lia. destruct (Z.leb_spec 0 z); [|lia]. destruct (Z.leb_spec z 9); [|lia]. reflexivity.
Qed.
Lemma rmap_dig l : Forall is_digit l -> rmap int_conv (map dig l) = Ok l.
Proof. induction 1 as [|z l Hz _ IH]; [reflexivity|]. cbn [map rmap]. rewrite (int_conv_dig z Hz). cbn [rbind]. rewrite IH. reflexivity. Qed.
Lemma digit_str c a : int_conv c = Ok a -> digit a = String c "".
Proof.
  unfold int_conv, digit. set (n := Z.of_nat (nat_of_ascii c) - 48). destruct ((0 <=? n) && (n <=? 9)) eqn:E; [|discriminate]. intros E2. injection E2 as <-. rewrite E. f_equal. apply andb_true_iff in E. destruct E as [E1 E2]. apply Z.leb_le in E1, E2.
  replace (48 + Z.to_nat n)%nat with (nat_of_ascii c) by (unfold n in *; lia). apply ascii_nat_embedding.
Qed.

Section Run.
  Context {V BA BN I : Type} (W : env Z V Z BA BN) (Hlab : forall i, e_lab W i = Z.of_nat i).
  Context (rules : dict string string) (k : nat) (Hk : (1 <= k)%nat) (Hne : rules <> []) (Hkeys : forall w, In w (dkeys rules) -> String.length w = k)
    (Hvals : forall w y, dget rules w = Some y -> exists l, rmap int_conv (list_ascii_of_string y) = Ok l).
  Context (r : nat -> list Z) (Hd : forall t, Forall is_digit (r t)) (Hr : forall t, r t <> []) (Hstep : forall t, rewrite_all rules k (map dig (r t)) = Some (map dig (r (S t)))).

  Lemma fold_max (l : list (list Z)) : (forall x, In x l -> (length x <= longest l)%nat) /\ (l <> [] -> exists x, In x l /\ length x = longest l).
  Proof.
    unfold longest. induction l as [|x l [IH1 IH2]]; [split; [intros x []|congruence]|]. change (list_max (map (@length Z) (x :: l))) with (Nat.max (length x) (list_max (map (@length Z) l))). split.
    - intros y [->|Hy]; [lia|]. specialize (IH1 y Hy). lia.
    - intros _. destruct (Nat.le_gt_cases (list_max (map (@length Z) l)) (length x)) as [Hx|Hx]; [exists x; split; [left; reflexivity|lia]|]. destruct l as [|z l]; [cbn in Hx; lia|]. destruct IH2 as (y & Hy & E); [discriminate|]. exists y. split; [right; assumption|lia].
  Qed.

  Lemma subst_demo_rows fuel T : 1 <= T -> (Z.to_nat T < fuel)%nat -> subst_demo (I := I) W fuel rules (r 0%nat) T = Ok (padded (first_rows r T)).
  Proof.
    intros HT Hf. unfold subst_demo.
    destruct (C46_init (V := V) (r 0%nat) rules [] k (Hr 0%nat) Hne Hk) as (rules' & net & u & E & Hg); [intros w [Hw|[]]; apply Hkeys; assumption|]. rewrite E. cbn [rbind].
    assert (Hg' : forall w, dget rules' w = dget rules w) by (intros w; rewrite Hg; reflexivity).
    assert (Hi : forall w, image rules' w = image rules w) by (intros w; unfold image; rewrite Hg'; reflexivity).
    assert (Hra : forall s, rewrite_all rules' k s = rewrite_all rules k s) by (intros s; unfold rewrite_all; induction (windows k s) as [|w ws IH]; [reflexivity|]; cbn [images]; rewrite Hi, IH; reflexivity).
    set (ss := map (fun t => map dig (r t)) (seq 0 (Z.to_nat T))).
    assert (Hlen : length ss = Z.to_nat T) by (unfold ss; rewrite map_length, seq_length; reflexivity).
    assert (Hnth : forall i, nth_error ss i = if (i <? Z.to_nat T)%nat then Some (map dig (r i)) else None).
    { intros i. unfold ss. destruct (Nat.ltb_spec i (Z.to_nat T)) as [Hlt|Hge].
      - erewrite map_nth_error; [reflexivity|]. rewrite (nth_error_nth' _ 0%nat) by (rewrite seq_length; assumption). rewrite seq_nth by assumption. reflexivity.
      - apply nth_error_None. rewrite map_length, seq_length. assumption. }
    destruct (C46_parallel_rewriting digit int_conv W fuel (subst_args (I := I) rules' (Z.of_nat k)) (r 0%nat) rules [] rules' (Z.of_nat k) net u (map dig (r 0%nat)) ss E) as (uf & traj & Ee & Hdisp).
    - lia.
    - exact digit_str.
    - intros w y Hy. rewrite Hi in Hy. unfold image in Hy. destruct (dget rules (string_of_list_ascii w)) as [y0|] eqn:Ey; [|discriminate]. injection Hy as <-. apply (Hvals _ _ Ey).
    - unfold plain, static. repeat split.
    - exact Hlab.
    - apply rmap_dig, Hd.
    - rewrite Nat2Z.id. split; [rewrite Hnth; destruct (Nat.ltb_spec 0 (Z.to_nat T)); [reflexivity|lia]|]. intros i a b. rewrite !Hnth. destruct (Nat.ltb_spec i (Z.to_nat T)); [|discriminate]. destruct (Nat.ltb_spec (i + 1) (Z.to_nat T)); [|discriminate].
      intros E1 E2. injection E1 as <-. injection E2 as <-. rewrite Hra, Hstep, Nat.add_1_r. reflexivity.
    - rewrite Hlen. assumption.
    - rewrite Hlen, Z2Nat.id in Ee by lia. rewrite Ee. cbn [rbind]. unfold padded. destruct (fold_max (first_rows r T)) as [H1 H2].
      assert (Hfr : first_rows r T <> []) by (unfold first_rows; destruct (Z.to_nat T) eqn:ET; [lia|discriminate]).
      apply (C46_pad W traj ss (first_rows r T) (longest (first_rows r T))); try assumption.
      + unfold ss. destruct (Z.to_nat T) eqn:ET; [lia|discriminate].
      + apply Forall_forall. intros s Hs. unfold ss in Hs. apply in_map_iff in Hs. destruct Hs as (t & <- & _). intros E0. apply map_eq_nil in E0. exact (Hr t E0).
      + unfold ss, first_rows. generalize (seq 0 (Z.to_nat T)). intros ts. induction ts as [|t ts IH]; [constructor|]. cbn [map]. constructor; [apply rmap_dig, Hd|exact IH].
      + apply H2. assumption.
  Qed.
End Run.

(** windows of numbers *)
Lemma images_cons rules w ws x y : image rules w = Some x -> images rules ws = Some y -> images rules (w :: ws) = Some (x ++ y).
Proof. intros E1 E2. cbn [images]. rewrite E1, E2. reflexivity. Qed.
Lemma windows_cons k a s : (1 <= k)%nat -> (k <= length (a :: s))%nat -> windows k (a :: s) = firstn k (a :: s) :: windows k s.
Proof.
  intros Hk Hl. unfold windows. cbn [length] in *. replace (S (length s) + 1 - k)%nat with (S (length s + 1 - k)) by lia. cbn [seq map]. f_equal. rewrite <- seq_shift, map_map. reflexivity.
Qed.
Lemma windows_short k s : (length s < k)%nat -> windows k s = [].
Proof. intros Hl. unfold windows. replace (length s + 1 - k)%nat with 0%nat by lia. reflexivity. Qed.

Section Numbers.
  Context (rules : dict string string) (D : list Z).
  Lemma rewrite_1 f : (forall a, In a D -> image rules [dig a] = Some (map dig (f a))) -> forall l, Forall (fun z => In z D) l -> rewrite_all rules 1 (map dig l) = Some (map dig (rewrite1 f l)).
  Proof.
    intros Hf. induction 1 as [|a l Ha Hl IH]; [reflexivity|]. unfold rewrite_all in *. cbn [map]. rewrite windows_cons by (cbn; lia). cbn [firstn rewrite1]. rewrite map_app. apply images_cons; [apply Hf; assumption|exact IH].
  Qed.
  Lemma rewrite_2 f : (forall a b, In a D -> In b D -> image rules [dig a; dig b] = Some (map dig (f a b))) -> forall l, Forall (fun z => In z D) l -> rewrite_all rules 2 (map dig l) = Some (map dig (rewrite2 f l)).
  Proof.
    intros Hf. induction 1 as [|a l Ha Hl IH]; [reflexivity|]. unfold rewrite_all in *. destruct l as [|b l]; [reflexivity|]. cbn [map] in *. rewrite windows_cons by (cbn; lia). cbn [firstn]. change (rewrite2 f (a :: b :: l)) with (f a b ++ rewrite2 f (b :: l)). rewrite map_app.
    apply images_cons; [apply Hf; [assumption|]; inversion Hl; assumption|exact IH].
  Qed.
  Lemma rewrite_3 f : (forall a b c, In a D -> In b D -> In c D -> image rules [dig a; dig b; dig c] = Some (map dig (f a b c))) -> forall l, Forall (fun z => In z D) l -> rewrite_all rules 3 (map dig l) = Some (map dig (rewrite3 f l)).
  Proof.
    intros Hf. induction 1 as [|a l Ha Hl IH]; [reflexivity|]. unfold rewrite_all in *. destruct l as [|b [|c l]]; [reflexivity|reflexivity|]. cbn [map] in *. rewrite windows_cons by (cbn; lia). cbn [firstn]. change (rewrite3 f (a :: b :: c :: l)) with (f a b c ++ rewrite3 f (b :: c :: l)). rewrite map_app.
    inversion Hl as [|? ? Hb Hl']. subst. inversion Hl' as [|? ? Hc ?]. subst. apply images_cons; [apply Hf; assumption|exact IH].
  Qed.
End Numbers.
