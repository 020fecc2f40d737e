(** Lemmas about the Python fragment of [Py.v]. No modelling happens here. *)
From Verif Require Import Py.

Lemma eqb_refl {A} `{EqD A} (x : A) : eqb x x = true.
Proof. unfold eqb. destruct (eqd x x); congruence. Qed.

Lemma eqb_true {A} `{EqD A} (x y : A) : eqb x y = true <-> x = y.
Proof. unfold eqb. destruct (eqd x y); split; congruence. Qed.

Lemma eqb_false {A} `{EqD A} (x y : A) : eqb x y = false <-> x <> y.
Proof. unfold eqb. destruct (eqd x y); split; congruence. Qed.

Lemma eqb_eq {A} `{EqD A} (x y : A) : eqb x y = true -> x = y.
Proof. apply eqb_true. Qed.

Lemma eqb_neq {A} `{EqD A} (x y : A) : eqb x y = false -> x <> y.
Proof. apply eqb_false. Qed.

Lemma eqb_sym {A} `{EqD A} (x y : A) : eqb x y = eqb y x.
Proof. unfold eqb. destruct (eqd x y), (eqd y x); congruence. Qed.

Lemma eqb_spec {A} `{EqD A} (x y : A) : reflect (x = y) (eqb x y).
Proof. unfold eqb. destruct (eqd x y); constructor; assumption. Qed.

Section DictFacts.
  Context {K V : Type} `{EqD K}.
  Implicit Types (d : dict K V) (k : K) (v : V).

  Lemma dget_dset_eq d k v : dget (dset d k v) k = Some v.
  Proof.
    induction d as [|[k' v'] d IH]; cbn.
    - destruct (eqd k k); congruence.
    - destruct (eqd k k') as [->|Hne]; cbn.
      + destruct (eqd k' k'); congruence.
      + destruct (eqd k k'); congruence.
  Qed.

  Lemma dget_dset_ne d k k' v : k <> k' -> dget (dset d k v) k' = dget d k'.
  Proof.
    intros Hne. induction d as [|[k0 v0] d IH]; cbn.
    - destruct (eqd k' k); congruence.
    - destruct (eqd k k0) as [->|Hne0]; cbn.
      + destruct (eqd k' k0); congruence.
      + destruct (eqd k' k0); congruence.
  Qed.

  Lemma dget_dset d k k' v : dget (dset d k v) k' = if eqd k' k then Some v else dget d k'.
  Proof.
    destruct (eqd k' k) as [->|Hne]; [apply dget_dset_eq | apply dget_dset_ne; congruence].
  Qed.

  Lemma dget_ddel d k k' : dget (ddel d k) k' = if eqd k' k then None else dget d k'.
  Proof.
    induction d as [|[k0 v0] d IH]; cbn.
    - destruct (eqd k' k); reflexivity.
    - destruct (eqd k k0) as [->|Hne0]; cbn.
      + rewrite IH. destruct (eqd k' k0); congruence.
      + destruct (eqd k' k0) as [->|Hne1]; [|exact IH].
        destruct (eqd k0 k); congruence.
  Qed.

  Lemma dget_dmod d k k' f :
    dget (dmod d k f) k' = if eqd k' k then option_map f (dget d k') else dget d k'.
  Proof.
    induction d as [|[k0 v0] d IH]; cbn.
    - destruct (eqd k' k); reflexivity.
    - destruct (eqd k k0) as [->|Hne0]; cbn.
      + destruct (eqd k' k0); cbn; [reflexivity|exact IH].
      + destruct (eqd k' k0) as [->|Hne1]; cbn; [|exact IH].
        destruct (eqd k0 k); congruence.
  Qed.

  Lemma dkeys_dmod d k f : dkeys (dmod d k f) = dkeys d.
  Proof.
    unfold dkeys, dmod. rewrite map_map. apply map_ext. intros [k0 v0]; cbn.
    destruct (eqd k k0); reflexivity.
  Qed.

  Lemma dget_none d k : dget d k = None <-> ~ In k (dkeys d).
  Proof.
    induction d as [|[k0 v0] d IH]; cbn.
    - split; auto.
    - destruct (eqd k k0) as [->|Hne].
      + split; [discriminate | intros Hn; exfalso; apply Hn; left; reflexivity].
      + rewrite IH. split; intros Hn; [intros [E|E]; [congruence|auto] | intros E; apply Hn; auto].
  Qed.

  Lemma dget_some_in d k v : dget d k = Some v -> In (k, v) d.
  Proof.
    induction d as [|[k0 v0] d IH]; cbn; [discriminate|].
    destruct (eqd k k0) as [->|Hne]; intros E; [left; congruence | right; auto].
  Qed.

  Lemma dget_some_key d k v : dget d k = Some v -> In k (dkeys d).
  Proof. intros E. apply dget_some_in in E. unfold dkeys. apply in_map_iff. exists (k, v). auto. Qed.

  Lemma dget_key_some d k : In k (dkeys d) -> exists v, dget d k = Some v.
  Proof.
    intros Hin. destruct (dget d k) as [v|] eqn:E; [exists v; reflexivity|].
    apply dget_none in E. contradiction.
  Qed.

  Lemma dget_in d k v : NoDup (dkeys d) -> In (k, v) d -> dget d k = Some v.
  Proof.
    induction d as [|[k0 v0] d IH]; cbn; intros Hnd Hin; [contradiction|].
    inversion Hnd as [|? ? Hni Hnd']; subst.
    destruct (eqd k k0) as [->|Hne].
    - destruct Hin as [E|Hin]; [congruence|].
      exfalso. apply Hni. unfold dkeys. apply in_map_iff. exists (k0, v). auto.
    - destruct Hin as [E|Hin]; [congruence|auto].
  Qed.

  Lemma dmem_true d k : dmem d k = true <-> In k (dkeys d).
  Proof.
    unfold dmem. destruct (dget d k) eqn:E; split; intros Hx; try congruence.
    - eapply dget_some_key; eauto.
    - apply dget_none in E. contradiction.
  Qed.

  Lemma dmem_false d k : dmem d k = false <-> ~ In k (dkeys d).
  Proof. rewrite <- dmem_true. destruct (dmem d k); split; congruence. Qed.

  Lemma dkeys_dset d k v : dkeys (dset d k v) = if dmem d k then dkeys d else dkeys d ++ [k].
  Proof.
    unfold dmem. induction d as [|[k0 v0] d IH]; cbn; [reflexivity|].
    destruct (eqd k k0) as [->|Hne]; cbn.
    - reflexivity.
    - unfold dkeys in IH. rewrite IH. destruct (dget d k); reflexivity.
  Qed.

  Lemma dset_new d k v : ~ In k (dkeys d) -> dset d k v = d ++ [(k, v)].
  Proof.
    induction d as [|[k0 v0] d IH]; cbn; intros Hn; [reflexivity|].
    destruct (eqd k k0) as [->|Hne]; [exfalso; apply Hn; auto|].
    rewrite IH; auto.
  Qed.

  Lemma in_dkeys_dset d k v k' : In k' (dkeys (dset d k v)) <-> k' = k \/ In k' (dkeys d).
  Proof.
    rewrite dkeys_dset. destruct (dmem d k) eqn:E.
    - apply dmem_true in E. split; [auto|]. intros [->|Hin]; auto.
    - rewrite in_app_iff. cbn. split; intros Hx; intuition congruence.
  Qed.

  Lemma NoDup_snoc {A} (l : list A) (x : A) : NoDup l -> ~ In x l -> NoDup (l ++ [x]).
  Proof.
    intros Hnd Hni. apply NoDup_rev in Hnd. rewrite <- (rev_involutive (l ++ [x])).
    apply NoDup_rev. rewrite rev_app_distr. cbn. constructor; [|assumption].
    rewrite <- in_rev. assumption.
  Qed.

  Lemma NoDup_dset d k v : NoDup (dkeys d) -> NoDup (dkeys (dset d k v)).
  Proof.
    intros Hnd. rewrite dkeys_dset. destruct (dmem d k) eqn:E; [assumption|].
    apply NoDup_snoc; [assumption|]. apply dmem_false. assumption.
  Qed.

  Lemma dkeys_ddel d k : dkeys (ddel d k) = filter (fun k' => negb (eqb k k')) (dkeys d).
  Proof.
    induction d as [|[k0 v0] d IH]; cbn; [reflexivity|].
    unfold eqb in *. destruct (eqd k k0) as [->|Hne]; cbn; [exact IH|].
    unfold dkeys in IH. rewrite IH. reflexivity.
  Qed.

  Lemma in_dkeys_ddel d k k' : In k' (dkeys (ddel d k)) <-> In k' (dkeys d) /\ k' <> k.
  Proof.
    rewrite dkeys_ddel, filter_In. rewrite negb_true_iff, eqb_false. split; intuition congruence.
  Qed.

  Lemma NoDup_ddel d k : NoDup (dkeys d) -> NoDup (dkeys (ddel d k)).
  Proof. intros Hnd. rewrite dkeys_ddel. apply NoDup_filter. assumption. Qed.

  Lemma ddel_notin d k : ~ In k (dkeys d) -> ddel d k = d.
  Proof.
    induction d as [|[k0 v0] d IH]; cbn; intros Hn; [reflexivity|].
    destruct (eqd k k0) as [->|Hne]; [exfalso; auto|]. rewrite IH; auto.
  Qed.

  Lemma ddel_app d d' k : ddel (d ++ d') k = ddel d k ++ ddel d' k.
  Proof.
    induction d as [|[k0 v0] d IH]; cbn; [reflexivity|].
    destruct (eqd k k0); cbn; congruence.
  Qed.

  (** Two dicts with the same key order and the same lookups are equal. *)
  Lemma dict_ext d1 d2 :
    dkeys d1 = dkeys d2 -> NoDup (dkeys d1) -> (forall k, dget d1 k = dget d2 k) -> d1 = d2.
  Proof.
    revert d2. induction d1 as [|[k v] d1 IH]; intros [|[k2 v2] d2]; cbn; intros Hk Hnd Hg;
      try discriminate; [reflexivity|].
    inversion Hk as [[E1 E2]]; subst k2. inversion Hnd as [|? ? Hni Hnd']; subst.
    pose proof (Hg k) as Hgk. destruct (eqd k k); [|congruence]. inversion Hgk; subst v2.
    f_equal. apply IH; auto. intros k'. pose proof (Hg k') as Hg'.
    destruct (eqd k' k) as [->|Hne]; [|assumption].
    assert (N1 : dget d1 k = None) by (apply dget_none; assumption).
    assert (N2 : dget d2 k = None) by (apply dget_none; unfold dkeys in *; rewrite <- E2; assumption).
    congruence.
  Qed.

  Lemma dget_map_vals {W} (f : K -> V -> W) d k :
    dget (map (fun kv => (fst kv, f (fst kv) (snd kv))) d) k = option_map (f k) (dget d k).
  Proof.
    induction d as [|[k0 v0] d IH]; cbn; [reflexivity|].
    destruct (eqd k k0) as [->|Hne]; [reflexivity|exact IH].
  Qed.

  Lemma dset_same d k v : dget d k = Some v -> dset d k v = d.
  Proof.
    induction d as [|[k0 v0] d IH]; cbn; [discriminate|].
    destruct (eqd k k0) as [->|Hne]; intros E; [congruence|]. rewrite IH; auto.
  Qed.

  Lemma dmod_dset d k f v : NoDup (dkeys d) -> dget d k = Some v -> dmod d k f = dset d k (f v).
  Proof.
    intros Hnd Hg. apply dict_ext.
    - rewrite dkeys_dmod, dkeys_dset. unfold dmem. rewrite Hg. reflexivity.
    - rewrite dkeys_dmod. assumption.
    - intros k'. rewrite dget_dmod, dget_dset. destruct (eqd k' k) as [->|]; [|reflexivity].
      rewrite Hg. reflexivity.
  Qed.

  Lemma dget_app d d' k :
    dget (d ++ d') k = match dget d k with Some v => Some v | None => dget d' k end.
  Proof.
    induction d as [|[k0 v0] d IH]; cbn; [reflexivity|].
    destruct (eqd k k0); auto.
  Qed.

  Lemma dkeys_app d d' : dkeys (d ++ d') = dkeys d ++ dkeys d'.
  Proof. apply map_app. Qed.

  Lemma NoDup_dupdate d e : NoDup (dkeys d) -> NoDup (dkeys (dupdate d e)).
  Proof.
    unfold dupdate. revert d. induction e as [|[k v] e IH]; cbn; intros d Hnd; [assumption|].
    apply IH. apply NoDup_dset. assumption.
  Qed.

  Lemma dget_dupdate d e k : NoDup (dkeys e) ->
    dget (dupdate d e) k = match dget e k with Some v => Some v | None => dget d k end.
  Proof.
    unfold dupdate. revert d. induction e as [|[k0 v0] e IH]; cbn; intros d Hnd; [reflexivity|].
    inversion Hnd as [|? ? Hni Hnd']; subst. rewrite IH by assumption. rewrite dget_dset.
    destruct (eqd k k0) as [->|Hne]; [|reflexivity].
    assert (N : dget e k0 = None) by (apply dget_none; assumption). rewrite N. reflexivity.
  Qed.

End DictFacts.

(** ** Lists *)

Lemma length_upd_nth {A} (l : list A) k f : length (upd_nth l k f) = length l.
Proof. revert k. induction l as [|x xs IH]; intros [|k]; cbn; auto. Qed.

Lemma nth_error_upd_nth {A} (l : list A) k f i :
  nth_error (upd_nth l k f) i = if Nat.eq_dec i k then option_map f (nth_error l i) else nth_error l i.
Proof.
  revert k i. induction l as [|x xs IH]; intros k i.
  - destruct k, i; cbn [upd_nth nth_error]; destruct (Nat.eq_dec _ _); reflexivity.
  - destruct k as [|k], i as [|i]; cbn [upd_nth nth_error];
      try (destruct (Nat.eq_dec _ _); [try lia; reflexivity | try lia; reflexivity]).
    rewrite IH. destruct (Nat.eq_dec i k), (Nat.eq_dec (S i) (S k)); try reflexivity; lia.
Qed.

Lemma py_index_nonneg len k : k < len -> py_index len (Z.of_nat k) = Some k.
Proof.
  intros Hk. unfold py_index.
  destruct (Z.leb_spec 0 (Z.of_nat k)); [|lia].
  destruct (Z.ltb_spec (Z.of_nat k) (Z.of_nat len)); [|lia]. cbn. rewrite Nat2Z.id. reflexivity.
Qed.

Lemma py_index_lt len i k : py_index len i = Some k -> k < len.
Proof.
  unfold py_index.
  destruct (Z.leb_spec 0 i), (Z.ltb_spec i (Z.of_nat len)); cbn;
    try (intros E; inversion E; subst; lia);
    destruct (Z.leb_spec (- Z.of_nat len) i), (Z.ltb_spec i 0); cbn; intros E; inversion E; subst; lia.
Qed.

(** Python index as arithmetic modulo the length *)
Lemma py_index_mod len i :
  (- Z.of_nat len <= i < Z.of_nat len)%Z ->
  py_index len i = Some (Z.to_nat (i mod Z.of_nat len)).
Proof.
  intros [Hlo Hhi]. unfold py_index.
  destruct (Z.leb_spec 0 i); cbn.
  - destruct (Z.ltb_spec i (Z.of_nat len)); [|lia]. cbn. rewrite Z.mod_small by lia. reflexivity.
  - destruct (Z.leb_spec (- Z.of_nat len) i); [|lia].
    destruct (Z.ltb_spec i 0); [|lia]. cbn. f_equal. f_equal.
    symmetry. rewrite <- (Z_mod_plus_full i 1 (Z.of_nat len)). rewrite Z.mul_1_l.
    apply Z.mod_small. lia.
Qed.

Lemma py_index_err len i :
  ~ (- Z.of_nat len <= i < Z.of_nat len)%Z -> py_index len i = None.
Proof.
  intros Hn. unfold py_index.
  destruct (Z.leb_spec 0 i), (Z.ltb_spec i (Z.of_nat len)); cbn; try (exfalso; lia);
  destruct (Z.leb_spec (- Z.of_nat len) i), (Z.ltb_spec i 0); cbn; try reflexivity; exfalso; lia.
Qed.

Lemma zsum_app l l' : zsum (l ++ l') = (zsum l + zsum l')%Z.
Proof. induction l as [|x xs IH]; cbn; [reflexivity|]. rewrite IH. lia. Qed.

Lemma zsum_perm l l' : Permutation l l' -> zsum l = zsum l'.
Proof. induction 1; cbn in *; lia. Qed.

Lemma count_app {A} `{EqD A} (l l' : list A) x : count (l ++ l') x = count l x + count l' x.
Proof. unfold count. rewrite filter_app, app_length. reflexivity. Qed.

Lemma count_notin {A} `{EqD A} (l : list A) x : ~ In x l -> count l x = 0.
Proof.
  unfold count. induction l as [|y ys IH]; cbn; intros Hn; [reflexivity|].
  destruct (eqb_spec x y); [exfalso; auto|]. apply IH. auto.
Qed.

Lemma count_pos {A} `{EqD A} (l : list A) x : count l x > 0 <-> In x l.
Proof.
  unfold count. induction l as [|y ys IH]; cbn; [split; [lia|contradiction]|].
  destruct (eqb_spec x y) as [->|Hne]; cbn.
  - split; [auto|lia].
  - rewrite IH. split; [auto | intros [E|E]; [congruence|assumption]].
Qed.

Lemma rmap_ok {A B} (f : A -> res B) (g : A -> B) l :
  (forall x, In x l -> f x = Ok (g x)) -> rmap f l = Ok (map g l).
Proof.
  induction l as [|x xs IH]; cbn; intros Hf; [reflexivity|].
  rewrite Hf by auto. cbn. rewrite IH by auto. reflexivity.
Qed.

Lemma rmap_ok_inv {A B} (f : A -> res B) l l' :
  rmap f l = Ok l' -> Forall2 (fun x y => f x = Ok y) l l'.
Proof.
  revert l'. induction l as [|x xs IH]; cbn; intros l' E.
  - inversion E. constructor.
  - destruct (f x) eqn:Ef; cbn in E; [|discriminate].
    destruct (rmap f xs) eqn:Er; cbn in E; [|discriminate].
    inversion E; subst. constructor; auto.
Qed.

Lemma rmap_ext {A B} (f g : A -> res B) l : (forall x, In x l -> f x = g x) -> rmap f l = rmap g l.
Proof.
  induction l as [|x xs IH]; cbn; intros Hf; [reflexivity|].
  rewrite Hf by auto. destruct (g x); cbn; [|reflexivity]. rewrite IH by auto. reflexivity.
Qed.

Lemma rfold_app {A S} (f : S -> A -> res S) l1 l2 s :
  rfold f (l1 ++ l2) s = (s' <- rfold f l1 s ;; rfold f l2 s').
Proof.
  revert s. induction l1 as [|x xs IH]; cbn; intros s; [reflexivity|].
  destruct (f s x); cbn; auto.
Qed.

Lemma py_find_some {A} `{EqD A} (l : list A) x k :
  py_find l x = Some k -> nth_error l k = Some x.
Proof.
  revert k. induction l as [|y ys IH]; cbn; intros k E; [discriminate|].
  destruct (eqd x y) as [->|Hne].
  - inversion E. reflexivity.
  - destruct (py_find ys x) as [k'|] eqn:E'; cbn in E; inversion E; subst. cbn. auto.
Qed.

Lemma py_find_in {A} `{EqD A} (l : list A) x : In x l -> exists k, py_find l x = Some k.
Proof.
  induction l as [|y ys IH]; cbn; [contradiction|].
  destruct (eqd x y) as [->|Hne]; intros Hin; [eauto|].
  destruct Hin as [E|Hin]; [congruence|]. destruct (IH Hin) as [k E]. rewrite E. cbn. eauto.
Qed.

Lemma py_find_none {A} `{EqD A} (l : list A) x : py_find l x = None <-> ~ In x l.
Proof.
  induction l as [|y ys IH]; cbn; [split; auto|].
  destruct (eqd x y) as [->|Hne]; [split; [discriminate|intros Hn; exfalso; auto]|].
  destruct (py_find ys x) eqn:E; cbn.
  - split; [discriminate|]. intros Hn. exfalso. assert (Some n = None) by (apply IH; auto). discriminate.
  - split; [|reflexivity]. intros _ [E'|E']; [congruence|]. apply (proj1 IH); auto.
Qed.

Lemma py_find_nodup {A} `{EqD A} (l : list A) x k :
  NoDup l -> nth_error l k = Some x -> py_find l x = Some k.
Proof.
  revert k. induction l as [|y ys IH]; intros k Hnd E; [destruct k; discriminate|].
  inversion Hnd as [|? ? Hni Hnd']; subst. destruct k as [|k]; cbn in *.
  - inversion E; subst. destruct (eqd x x); congruence.
  - destruct (eqd x y) as [->|Hne].
    + exfalso. apply Hni. eapply nth_error_In; eauto.
    + rewrite (IH k) by assumption. reflexivity.
Qed.

Lemma nth_error_ext {A} (l l' : list A) :
  (forall i, nth_error l i = nth_error l' i) -> l = l'.
Proof.
  revert l'. induction l as [|x xs IH]; intros [|y ys] Hf; [reflexivity| | |].
  - specialize (Hf 0); discriminate.
  - specialize (Hf 0); discriminate.
  - f_equal; [specialize (Hf 0); cbn in Hf; congruence|].
    apply IH. intros i. exact (Hf (S i)).
Qed.

Lemma filter_true {A} (f : A -> bool) l : (forall x, In x l -> f x = true) -> filter f l = l.
Proof.
  induction l as [|x xs IH]; cbn; intros Hf; [reflexivity|].
  rewrite Hf by auto. rewrite IH by auto. reflexivity.
Qed.

Lemma filter_false {A} (f : A -> bool) l : (forall x, In x l -> f x = false) -> filter f l = [].
Proof.
  induction l as [|x xs IH]; cbn; intros Hf; [reflexivity|].
  rewrite Hf by auto. apply IH. auto.
Qed.

Lemma filter_filter {A} (f g : A -> bool) l : filter f (filter g l) = filter (fun x => g x && f x) l.
Proof.
  induction l as [|x xs IH]; cbn; [reflexivity|].
  destruct (g x) eqn:Eg; cbn; [destruct (f x); congruence|exact IH].
Qed.

Lemma filter_comm {A} (f g : A -> bool) l : filter f (filter g l) = filter g (filter f l).
Proof. rewrite !filter_filter. apply filter_ext. intros x. apply andb_comm. Qed.
