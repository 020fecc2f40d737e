(** * Proofs about utils.py and the initial condition builders *)
From Coq Require Import Sorted.
From Verif Require Import Py PyFacts ListFacts Network Evolve Rules RulesSpec RulesProofs Utils.
Open Scope string_scope.
Open Scope list_scope.
Open Scope Z_scope.

(** ** sorted *)
Section Sort.
  Context {L : Type} (leb : L -> L -> bool).
  Lemma insert_perm x l : Permutation (insert leb x l) (x :: l).
  Proof. induction l as [|y l IH]; cbn; [reflexivity|]. destruct (leb x y); [reflexivity|]. rewrite IH. apply perm_swap. Qed.
  Lemma sorted_perm l : Permutation (sorted leb l) l.
  Proof. induction l as [|x l IH]; cbn; [reflexivity|]. rewrite insert_perm, IH. reflexivity. Qed.

  Context (Htot : forall x y, leb x y = true \/ leb y x = true) (Htrans : forall x y z, leb x y = true -> leb y z = true -> leb x z = true).
  Lemma insert_sorted x l : StronglySorted (fun x y => leb x y = true) l -> StronglySorted (fun x y => leb x y = true) (insert leb x l).
  Proof.
    induction 1 as [|y l Hs IH Hy]; cbn; [constructor; constructor|]. destruct (leb x y) eqn:E.
    - constructor; [constructor; assumption|]. constructor; [assumption|]. eapply Forall_impl; [|exact Hy]. intros z. apply Htrans. assumption.
    - constructor; [assumption|]. apply (Permutation_Forall (Permutation_sym (insert_perm x l))). constructor; [|assumption].
      destruct (Htot x y); congruence.
  Qed.
  Lemma sorted_sorted l : StronglySorted (fun x y => leb x y = true) (sorted leb l).
  Proof. induction l as [|x l IH]; cbn; [constructor|]. apply insert_sorted. assumption. Qed.
End Sort.

(** ** activities as lists *)
Section Activities.
  Context {L V A BA BN : Type} `{EqD L}.
  Context (W : env L V A BA BN) (leb : L -> L -> bool).
  Notation state := (state L V A BA BN).

  (** the rows that have activities *)
  Definition row_of (ac : dict L A) : res (list A) := rmap (fun a => of_opt KeyError (dget ac a)) (sorted leb (dkeys ac)).

  Lemma row_of_ok ac : NoDup (dkeys ac) -> exists r, row_of ac = Ok r /\ Forall2 (fun k a => dget ac k = Some a) (sorted leb (dkeys ac)) r.
  Proof.
    intros _. unfold row_of. assert (Hk : forall k, In k (sorted leb (dkeys ac)) -> exists a, dget ac k = Some a).
    { intros k Hk. apply (Permutation_in _ (sorted_perm leb _)) in Hk. apply dget_key_some. assumption. }
    induction (sorted leb (dkeys ac)) as [|k l IH]; [exists []; split; [reflexivity|constructor]|].
    destruct IH as (r & Er & Hr); [intros; apply Hk; right; assumption|]. destruct (Hk k (or_introl eq_refl)) as [a Ea].
    exists (a :: r). cbn [rmap]. rewrite Ea. cbn [of_opt rbind]. rewrite Er. split; [reflexivity|]. constructor; assumption.
  Qed.

  Lemma acts_list_app (t1 t2 : list state) : get_activities_over_time_as_list W leb (t1 ++ t2) =
    (a <- get_activities_over_time_as_list W leb t1 ;; b <- get_activities_over_time_as_list W leb t2 ;; Ok (a ++ b)).
  Proof.
    unfold get_activities_over_time_as_list. rewrite rfold_app.
    set (f := fun (activities : list (list A)) (s : state) => _).
    destruct (rfold f t1 []) as [a|e]; [|reflexivity]. cbn [rbind].
    assert (Hg : forall t acc, rfold f t acc = (b <- rfold f t [] ;; Ok (acc ++ b))).
    { assert (Hf : forall acc s, f acc s = (b <- f [] s ;; Ok (acc ++ b))).
      { intros acc s. unfold f. destruct (Evolve.activities W s) as [[[|kv d]|]|e]; cbn [rbind]; try rewrite app_nil_r; try reflexivity.
        match goal with |- context[rmap ?h ?l] => destruct (rmap h l) end; reflexivity. }
      induction t as [|s t IH]; intros acc; cbn [rfold]; [cbn [rbind]; rewrite app_nil_r; reflexivity|].
      rewrite (Hf acc). destruct (f [] s) as [b|e]; [|reflexivity]. cbn [rbind]. rewrite IH, (IH b). destruct (rfold f t []); [|reflexivity]. cbn [rbind]. rewrite app_assoc. reflexivity. }
    apply Hg.
  Qed.

  (** [S] are the dicts read from the states *)
  Lemma acts_list_ok (traj : list state) Ss : Forall2 (fun s S => Evolve.activities W s = Ok S) traj Ss ->
    (forall d, In (Some d) Ss -> NoDup (dkeys d)) ->
    exists rows, get_activities_over_time_as_list W leb traj = Ok rows /\
      Forall2 (fun d r => Forall2 (fun k a => dget d k = Some a) (sorted leb (dkeys d)) r)
        (flat_map (fun S => match S with None | Some [] => [] | Some d => [d] end) Ss) rows.
  Proof.
    induction 1 as [|s S traj Ss Es Hf IH]; intros Hd; [exists []; split; [reflexivity|constructor]|].
    destruct IH as (rows & E & Hr); [intros d Hin; apply Hd; right; assumption|].
    change (s :: traj) with ([s] ++ traj). rewrite acts_list_app, E. cbn [flat_map].
    unfold get_activities_over_time_as_list. cbn [rfold]. rewrite Es. cbn [rbind].
    destruct S as [[|kv d]|]; cbn [rbind app].
    - exists rows. auto.
    - destruct (row_of_ok (kv :: d)) as (r & Er & Hr'); [apply Hd; left; reflexivity|]. unfold row_of in Er. rewrite Er. cbn [rbind app].
      exists (r :: rows). split; [reflexivity|]. constructor; assumption.
    - exists rows. auto.
  Qed.
End Activities.

(** ** ncr *)

Fixpoint binom (n r : nat) : nat :=
  match n, r with
  | _, O => 1
  | O, S _ => 0
  | S n', S r' => binom n' r + binom n' r'
  end.

Lemma binom_big n r : (n < r)%nat -> binom n r = 0%nat.
Proof. revert r. induction n as [|n IH]; intros [|r] Hr; cbn; try lia. rewrite (IH (S r)), (IH r) by lia. reflexivity. Qed.
Lemma binom_zero n : binom n 0 = 1%nat.
Proof. destruct n; reflexivity. Qed.
Lemma binom_full n : binom n n = 1%nat.
Proof. induction n as [|n IH]; [reflexivity|]. cbn. rewrite IH, (binom_big n (S n)) by lia. reflexivity. Qed.

Lemma binom_fact n r : (r <= n)%nat -> (binom n r * fact r * fact (n - r) = fact n)%nat.
Proof.
  revert r. induction n as [|n IH]; intros r Hr; [replace r with 0%nat by lia; reflexivity|].
  destruct r as [|r]; [rewrite binom_zero, Nat.sub_0_r; change (fact 0) with 1%nat; lia|].
  destruct (Nat.eq_dec r n) as [->|Hne]; [rewrite binom_full, Nat.sub_diag; change (fact 0) with 1%nat; lia|].
  cbn [binom]. pose proof (IH (S r) ltac:(lia)) as H1. pose proof (IH r ltac:(lia)) as H2.
  replace (S n - S r)%nat with (n - r)%nat by lia. replace (n - r)%nat with (S (n - S r)) in * by lia.
  change (fact (S n)) with (S n * fact n)%nat. change (fact (S (n - S r))) with (S (n - S r) * fact (n - S r))%nat in *.
  change (fact (S r)) with (S r * fact r)%nat in *. revert H1 H2. generalize (binom n (S r)), (binom n r), (fact r), (fact (n - S r)), (fact n). intros a b x y z H1 H2.
  assert (Hs : (S n = S r + S (n - S r))%nat) by lia. rewrite Hs. clear Hs.
  generalize dependent (n - S r)%nat. intros m H2. transitivity (S r * z + S m * z)%nat; [rewrite <- H2 at 1; rewrite <- H1; ring|ring].
Qed.

Lemma factorial_fact n : factorial (Z.of_nat n) = Z.of_nat (fact n).
Proof.
  unfold factorial. induction n as [|n IH]; [reflexivity|]. rewrite Nat2Z.inj_succ. unfold Z.succ. rewrite zrange_snoc by lia. rewrite !Z.add_simpl_r, fold_left_app, IH. cbn [fold_left].
  change (fact (S n)) with (S n * fact n)%nat. lia.
Qed.

Lemma ncr_binom n r : ncr (Z.of_nat n) (Z.of_nat r) = Ok (Z.of_nat (binom n r)).
Proof.
  unfold ncr. destruct (Z.ltb_spec (Z.of_nat n) 0); [lia|]. destruct (Z.ltb_spec (Z.of_nat r) 0); [lia|].
  destruct (Z.ltb_spec (Z.of_nat n) (Z.of_nat r)); [rewrite binom_big by lia; reflexivity|]. f_equal.
  replace (Z.of_nat n - Z.of_nat r) with (Z.of_nat (n - r)) by lia. rewrite !factorial_fact.
  rewrite <- (binom_fact n r) by lia. rewrite !Nat2Z.inj_mul. pose proof (lt_O_fact r). pose proof (lt_O_fact (n - r)).
  replace (Z.of_nat (binom n r) * Z.of_nat (fact r) * Z.of_nat (fact (n - r))) with (Z.of_nat (binom n r) * Z.of_nat (fact (n - r)) * Z.of_nat (fact r)) by ring.
  rewrite Z.div_mul by lia. apply Z.div_mul. lia.
Qed.

(** the r-element subsets of {0, .., n-1}, each as its ascending list *)
Fixpoint subsets (n r : nat) : list (list nat) :=
  match n, r with
  | _, O => [[]]
  | O, S _ => []
  | S n', S r' => subsets n' r ++ map (fun l => l ++ [n']) (subsets n' r')
  end.

Lemma length_subsets n r : length (subsets n r) = binom n r.
Proof. revert r. induction n as [|n IH]; intros [|r]; try reflexivity. cbn [subsets binom]. rewrite app_length, map_length, !IH. reflexivity. Qed.

Lemma ssorted_snoc (l : list nat) x : StronglySorted lt (l ++ [x]) <-> StronglySorted lt l /\ Forall (fun y => (y < x)%nat) l.
Proof.
  induction l as [|y l IH]; cbn [app].
  - split; [intros _; split; constructor|intros _; constructor; constructor].
  - split.
    + intros Hs. inversion Hs as [|? ? Hs' Hf]; subst. apply IH in Hs'. destruct Hs' as [H1 H2]. apply Forall_app in Hf. destruct Hf as [Hf1 Hf2].
      split; [constructor; assumption|]. constructor; [inversion Hf2; assumption|assumption].
    + intros [Hs Hf]. inversion Hs; subst. inversion Hf; subst. constructor; [apply IH; auto|]. apply Forall_app. auto.
Qed.

Lemma subsets_spec n r l : In l (subsets n r) <-> StronglySorted lt l /\ length l = r /\ Forall (fun x => (x < n)%nat) l.
Proof.
  revert r l. induction n as [|n IH]; intros r l.
  - destruct r as [|r]; cbn [subsets In].
    + split; [intros [<-|[]]; repeat split; constructor|]. intros (_ & Hl & _). destruct l; [auto|discriminate].
    + split; [intros []|]. intros (_ & Hl & Hf). destruct Hf; [discriminate|lia].
  - destruct r as [|r]; cbn [subsets].
    + split; [intros [<-|[]]; repeat split; constructor|]. intros (_ & Hl & _). destruct l; [left; reflexivity|discriminate].
    + rewrite in_app_iff, in_map_iff. rewrite IH. split.
      * intros [(Hs & Hl & Hf)|(l' & <- & Hin)].
        -- repeat split; auto. eapply Forall_impl; [|exact Hf]. cbn. lia.
        -- apply IH in Hin. destruct Hin as (Hs & Hl & Hf). split; [apply ssorted_snoc; auto|]. split; [rewrite app_length; cbn; lia|].
           apply Forall_app. split; [eapply Forall_impl; [|exact Hf]; cbn; lia|]. constructor; [lia|constructor].
      * intros (Hs & Hl & Hf). destruct (exists_last (l := l)) as (l' & x & ->); [destruct l; discriminate|].
        apply ssorted_snoc in Hs. destruct Hs as [Hs Hlt]. apply Forall_app in Hf. destruct Hf as [Hf Hx]. inversion Hx as [|? ? Hx' _]; subst.
        destruct (Nat.eq_dec x n) as [->|Hne].
        -- right. exists l'. split; [reflexivity|]. apply IH. rewrite app_length in Hl. cbn in Hl. repeat split; auto. lia.
        -- left. split; [apply ssorted_snoc; auto|]. split; [assumption|]. apply Forall_app. split; [|constructor; [lia|constructor]].
           eapply Forall_impl; [|exact Hlt]. cbn. lia.
Qed.

Lemma NoDup_app_disj {X} (l l' : list X) : NoDup l -> NoDup l' -> (forall x, In x l -> ~ In x l') -> NoDup (l ++ l').
Proof.
  intros Hl Hl' Hd. induction Hl as [|x l Hx Hl IH]; [assumption|]. cbn. constructor; [|apply IH; intros y Hy; apply Hd; right; assumption].
  rewrite in_app_iff. intros [Hin|Hin]; [auto|]. apply (Hd x (or_introl eq_refl) Hin).
Qed.

Lemma NoDup_subsets n r : NoDup (subsets n r).
Proof.
  revert r. induction n as [|n IH]; intros [|r]; cbn [subsets]; try (constructor; [intros []|constructor]); [constructor|].
  apply NoDup_app_disj; [apply IH| |].
  - apply FinFun.Injective_map_NoDup; [|apply IH]. intros a b E. apply app_inj_tail in E. tauto.
  - intros l Hl Hm. apply in_map_iff in Hm. destruct Hm as (l' & <- & _). apply subsets_spec in Hl. destruct Hl as (_ & _ & Hf).
    apply Forall_app in Hf. destruct Hf as [_ Hf]. inversion Hf; subst. lia.
Qed.

(** ** binarize_for_plotting *)

Lemma list_max_in l : l <> [] -> In (list_max l) l.
Proof.
  induction l as [|x l IH]; [congruence|]. intros _. cbn [list_max fold_right]. change (fold_right Nat.max 0%nat l) with (list_max l).
  destruct (Nat.max_spec x (list_max l)) as [[Hlt ->]|[Hle ->]]; [|left; reflexivity].
  right. apply IH. intros ->. cbn in Hlt. lia.
Qed.
Lemma list_max_ge l x : In x l -> (x <= list_max l)%nat.
Proof. intros Hx. assert (Hf := proj1 (list_max_le l (list_max l)) (le_n _)). rewrite Forall_forall in Hf. auto. Qed.

Lemma bin_digits_leading num ds : 0 < num -> bin_digits num = Ok ds -> exists rest, ds = 1 :: rest.
Proof.
  intros Hn E. destruct (bin_digits_spec num ltac:(lia)) as (ds' & E' & Hb & Hv & Hne & Hlen). rewrite E in E'. injection E' as <-.
  destruct ds as [|d ds]; [congruence|]. inversion Hb as [|? ? Hd Hb']; subst. destruct Hd as [-> | ->]; [exfalso|eauto].
  assert (En : number 2 (0 :: ds) = number 2 ds) by (cbn [number]; lia). rewrite En in *. destruct ds as [|d' ds]; [cbn in Hn; lia|].
  assert (Hr := number_range 2 (d' :: ds) ltac:(lia) (proj1 (bits_states _) Hb')).
  assert (Hc : Z.of_nat (length (0 :: d' :: ds)) <= Z.of_nat (length (d' :: ds))) by (apply Hlen; [cbn [length]; lia|apply Hr]). cbn [length] in Hc. lia.
Qed.

(** ** initial conditions *)
Lemma py_index_at len k : 0 <= k < Z.of_nat len -> py_index len k = Some (Z.to_nat k).
Proof. intros Hk. unfold py_index. destruct (Z.leb_spec 0 k); [|lia]. destruct (Z.ltb_spec k (Z.of_nat len)); [|lia]. reflexivity. Qed.
