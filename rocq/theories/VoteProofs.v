(** The energy argument for voting: how often a node can turn. *)
From Verif Require Import Py PyFacts ListFacts EcaSpec HopfieldProofs SandpileProofs VoteSpec.
Open Scope list_scope.
Open Scope Z_scope.

Definition spin (a : Z) : Z := 2 * a - 1.
Definition pull (nb : Z -> list Z) (s : Z -> Z) (v : Z) : Z := zsum (map (fun w => spin (s w)) (nb v)).

Lemma pull_ones nb s v : pull nb s v = 2 * ones nb s v - deg nb v.
Proof. unfold pull, ones, deg, spin. induction (nb v) as [|w l IH]; [reflexivity|]. cbn [map length]. rewrite !zsum_cons, IH. lia. Qed.
Lemma tied_pull nb s v : tied nb s v = (pull nb s v =? 0).
Proof. unfold tied. rewrite pull_ones. destruct (Z.eqb_spec (2 * ones nb s v) (deg nb v)), (Z.eqb_spec (2 * ones nb s v - deg nb v) 0); lia. Qed.
Lemma ones_bound nb s v : (forall w, In w (nb v) -> bit (s w)) -> 0 <= ones nb s v <= deg nb v.
Proof. unfold ones, deg. induction (nb v) as [|w l IH]; intros Hb; [cbn; lia|]. cbn [map length]. rewrite zsum_cons. specialize (IH (fun w Hw => Hb w (or_intror Hw))). destruct (Hb w (or_introl eq_refl)) as [-> | ->]; lia. Qed.

Section Energy.
  Context (vs : list Z) (nb : Z -> list Z) (Hu : undirected vs nb).
  Notation D := (fun v => In v vs).
  Definition linked (v w : Z) : Z := ind (existsb (Z.eqb w) (nb v)).
  Lemma existsb_in w l : existsb (Z.eqb w) l = true <-> In w l.
  Proof. rewrite existsb_exists. split; [intros (x & Hx & E); apply Z.eqb_eq in E; subst; exact Hx|intros Hw; exists w; split; [exact Hw|apply Z.eqb_refl]]. Qed.
  Lemma linked_sym v w : In v vs -> In w vs -> linked v w = linked w v.
  Proof. intros Hv Hw. unfold linked. f_equal. apply eq_true_iff_eq. rewrite !existsb_in. split; apply (ud_sym _ _ Hu); assumption. Qed.
  Lemma nb_sum (g : Z -> Z) v : In v vs -> zsum (map g (nb v)) = zsum (map (fun w => linked v w * g w) vs).
  Proof.
    intros Hv. unfold linked. rewrite <- (zsum_filter_ind (fun w => existsb (Z.eqb w) (nb v)) g vs). apply zsum_map_perm. apply NoDup_Permutation.
    - apply (ud_once _ _ Hu), Hv.
    - apply NoDup_filter, (ud_nodes _ _ Hu).
    - intros w. rewrite filter_In, existsb_in. split; [intros Hw; split; [apply (ud_in _ _ Hu v w Hv Hw)|exact Hw]|tauto].
  Qed.
  Definition energy (a b : Z -> Z) : Z := zsum (map (fun v => spin (a v) * pull nb b v) vs).
  Lemma energy_double a b : energy a b = zsum (map (fun v => zsum (map (fun w => linked v w * (spin (a v) * spin (b w))) vs)) vs).
  Proof.
    unfold energy. apply zsum_ext. intros v Hv. unfold pull. rewrite nb_sum by exact Hv. rewrite <- zsum_mul. apply zsum_ext. intros w _. lia.
  Qed.
  Lemma energy_sym a b : energy a b = energy b a.
  Proof.
    rewrite !energy_double, zsum_swap. apply zsum_ext. intros w Hw. apply zsum_ext. intros v Hv. rewrite (linked_sym v w Hv Hw). lia.
  Qed.
  Lemma zsum_minus {X} (f g : X -> Z) l : zsum (map f l) - zsum (map g l) = zsum (map (fun x => f x - g x) l).
  Proof. induction l as [|x l IH]; [reflexivity|]. cbn [map]. rewrite !zsum_cons. lia. Qed.

  Definition turned_at (st : nat -> Z -> Z) (k : nat) : Z := zsum (map (fun v => ind (turned nb st k v)) vs).
  Lemma vote_pull s s' v : In v vs -> votes D nb s s' -> (0 < pull nb s v -> s' v = 1) /\ (pull nb s v < 0 -> s' v = 0).
  Proof. intros Hv H. destruct (H v Hv) as (H0 & H1 & _). rewrite pull_ones. split; intros Hp; [apply H1|apply H0]; lia. Qed.
  Lemma vote_bit s s' : (forall v, In v vs -> bit (s v)) -> votes D nb s s' -> forall v, In v vs -> bit (s' v).
  Proof. intros Hb H v Hv. destruct (H v Hv) as (_ & _ & w & Hw & ->). apply Hb, (ud_in _ _ Hu v w Hv Hw). Qed.

  Lemma energy_step st k : (forall v, In v vs -> bit (st k v)) -> votes D nb (st k) (st (S k)) -> votes D nb (st (S k)) (st (S (S k))) ->
    energy (st (S k)) (st k) + 2 * turned_at st k <= energy (st (S (S k))) (st (S k)).
  Proof.
    intros Hb V1 V2. pose proof (vote_bit _ _ Hb V1) as Hb1. pose proof (vote_bit _ _ Hb1 V2) as Hb2. rewrite (energy_sym (st (S k)) (st k)).
    enough (2 * turned_at st k <= energy (st (S (S k))) (st (S k)) - energy (st k) (st (S k))) by lia.
    unfold energy. rewrite zsum_minus. unfold turned_at. rewrite <- zsum_mul. apply zsum_le. intros v Hv. unfold turned. rewrite tied_pull.
    destruct (vote_pull _ _ v Hv V2) as [Hp Hn]. unfold spin. destruct (Z.eqb_spec (pull nb (st (S k)) v) 0) as [E|E]; cbn [negb andb ind]; [rewrite E; lia|].
    destruct (Z.eqb_spec (st (S (S k)) v) (st k v)) as [E2|E2]; cbn [negb ind]; [rewrite E2; lia|].
    destruct (Z.lt_total (pull nb (st (S k)) v) 0) as [Hx|[Hx|Hx]]; [|lia|].
    - rewrite (Hn Hx) in *. destruct (Hb v Hv) as [E3|E3]; rewrite E3 in *; [congruence|lia].
    - rewrite (Hp Hx) in *. destruct (Hb v Hv) as [E3|E3]; rewrite E3 in *; [lia|congruence].
  Qed.
  Lemma energy_le s s' : (forall v, In v vs -> bit (s v)) -> (forall v, In v vs -> bit (s' v)) -> energy s' s <= degrees vs nb.
  Proof.
    intros Hb Hb'. unfold energy, degrees. apply zsum_le. intros v Hv. rewrite pull_ones. unfold spin.
    pose proof (ones_bound nb s v (fun w Hw => Hb w (ud_in _ _ Hu v w Hv Hw))). destruct (Hb' v Hv) as [-> | ->]; lia.
  Qed.
  (** after a vote the energy is the sum of the differences between the two parties of neighbours *)
  Lemma energy_vote s s' : (forall v, In v vs -> bit (s v)) -> votes D nb s s' -> energy s' s = zsum (map (fun v => Z.abs (pull nb s v)) vs).
  Proof.
    intros Hb V. pose proof (vote_bit _ _ Hb V) as Hb'. unfold energy. apply zsum_ext. intros v Hv. destruct (vote_pull _ _ v Hv V) as [Hp Hn]. unfold spin.
    destruct (Z.lt_total (pull nb s v) 0) as [Hx|[Hx|Hx]]; [rewrite (Hn Hx)|rewrite Hx|rewrite (Hp Hx)]; lia.
  Qed.

  Lemma filter_length_ind {X} (p : X -> bool) l : Z.of_nat (length (filter p l)) = zsum (map (fun x => ind (p x)) l).
  Proof. induction l as [|x l IH]; [reflexivity|]. cbn [filter map]. rewrite zsum_cons, <- IH. destruct (p x); cbn [length ind]; lia. Qed.
  Lemma turns_S st K : Z.of_nat (turns vs nb st (S K)) = Z.of_nat (turns vs nb st K) + turned_at st K.
  Proof.
    unfold turns. rewrite seq_S. cbn [Nat.add]. assert (E : forall (l l' : list nat), list_prod (l ++ l') vs = list_prod l vs ++ list_prod l' vs).
    { clear. induction l as [|a l IH]; intros l'; [reflexivity|]. cbn [app list_prod]. rewrite IH. apply app_assoc. }
    rewrite E, filter_app, app_length, Nat2Z.inj_add. f_equal. cbn [list_prod]. rewrite app_nil_r, filter_length_ind, map_map. reflexivity.
  Qed.

  Theorem energy_run st K : (forall v, In v vs -> bit (st 0%nat v)) -> (forall k, (k <= K)%nat -> votes D nb (st k) (st (S k))) ->
    zsum (map (fun v => Z.abs (pull nb (st 0%nat) v)) vs) + 2 * Z.of_nat (turns vs nb st K) <= degrees vs nb.
  Proof.
    intros Hb V. assert (Hbk : forall k, (k <= S K)%nat -> forall v, In v vs -> bit (st k v)).
    { induction k as [|k IH]; intros Hk; [exact Hb|]. apply (vote_bit (st k)); [apply IH; lia|apply V; lia]. }
    assert (G : forall k, (k <= K)%nat -> zsum (map (fun v => Z.abs (pull nb (st 0%nat) v)) vs) + 2 * Z.of_nat (turns vs nb st k) <= energy (st (S k)) (st k)).
    { induction k as [|k IH]; intros Hk; [rewrite (energy_vote _ _ Hb (V 0%nat Hk)); unfold turns; cbn [seq list_prod filter length]; lia|].
      rewrite turns_S. pose proof (energy_step st k (Hbk k ltac:(lia)) (V k ltac:(lia)) (V (S k) Hk)). specialize (IH ltac:(lia)). lia. }
    pose proof (G K ltac:(lia)). pose proof (energy_le (st K) (st (S K)) (Hbk K ltac:(lia)) (Hbk (S K) ltac:(lia))). lia.
  Qed.

  (** without ties, the step is a function *)
  Lemma votes_same s s1 t t1 : (forall v, In v vs -> s v = t v) -> (forall v, In v vs -> tied nb s v = false) -> votes D nb s s1 -> votes D nb t t1 -> forall v, In v vs -> s1 v = t1 v.
  Proof.
    intros E Ht V1 V2 v Hv. assert (Eo : ones nb s v = ones nb t v) by (unfold ones; apply zsum_ext; intros w Hw; apply E, (ud_in _ _ Hu v w Hv Hw)).
    specialize (Ht v Hv). unfold tied in Ht. apply Z.eqb_neq in Ht. destruct (V1 v Hv) as (A0 & A1 & _). destruct (V2 v Hv) as (B0 & B1 & _). rewrite <- Eo in B0, B1.
    destruct (Z.lt_total (2 * ones nb s v) (deg nb v)) as [Hx|[Hx|Hx]]; [rewrite A0, B0 by lia|congruence|rewrite A1, B1 by lia]; reflexivity.
  Qed.

  Theorem period_two st K : (forall v, In v vs -> bit (st 0%nat v)) -> (forall k, (k <= S K)%nat -> votes D nb (st k) (st (S k))) -> (forall k v, (k <= S K)%nat -> In v vs -> tied nb (st k) v = false) ->
    degrees vs nb - Z.of_nat (length vs) <= 2 * Z.of_nat K -> forall v, In v vs -> st (S (S K)) v = st K v.
  Proof.
    intros Hb V Ht HK. assert (Hdec : forall k, (k <= K)%nat -> (exists v, In v vs /\ turned nb st k v = true) \/ forall v, In v vs -> st (S (S k)) v = st k v).
    { intros k Hk. destruct (existsb (turned nb st k) vs) eqn:E; [left; apply existsb_exists in E; exact E|]. right. intros v Hv. destruct (Z.eqb_spec (st (S (S k)) v) (st k v)) as [E1|E1]; [exact E1|].
      exfalso. assert (existsb (turned nb st k) vs = true); [|congruence]. apply existsb_exists. exists v. split; [exact Hv|]. unfold turned. rewrite Ht by (try exact Hv; lia). apply Z.eqb_neq in E1. rewrite E1. reflexivity. }
    assert (Hstay : forall k, (k < K)%nat -> (forall v, In v vs -> st (S (S k)) v = st k v) -> forall v, In v vs -> st (S (S (S k))) v = st (S k) v).
    { intros k Hk E v Hv. apply (votes_same (st (S (S k))) (st (S (S (S k)))) (st k) (st (S k))); [exact E| |apply V; lia|apply V; lia|exact Hv]. intros w Hw. apply Ht; [lia|exact Hw]. }
    assert (Hall : forall d k, (k + d = K)%nat -> (forall v, In v vs -> st (S (S k)) v = st k v) -> forall v, In v vs -> st (S (S K)) v = st K v).
    { induction d as [|d IH]; intros k Hk E; [replace K with k by lia; exact E|]. apply (IH (S k) ltac:(lia)). apply Hstay; [lia|exact E]. }
    assert (Hcount : forall k, (k <= S K)%nat -> (exists j, (j < k)%nat /\ forall v, In v vs -> st (S (S j)) v = st j v) \/ (k <= turns vs nb st k)%nat).
    { induction k as [|k IH]; intros Hk; [right; lia|]. destruct (IH ltac:(lia)) as [(j & Hj & E)|Hc]; [left; exists j; split; [lia|exact E]|].
      destruct (Hdec k ltac:(lia)) as [(v & Hv & E)|E]; [|left; exists k; split; [lia|exact E]]. right. pose proof (turns_S st k) as Es. assert (1 <= turned_at st k); [|lia].
      unfold turned_at. apply in_split in Hv. destruct Hv as (l & l' & ->). rewrite map_app. cbn [map]. rewrite PyFacts.zsum_app, zsum_cons, E. cbn [ind].
      assert (N : forall l, 0 <= zsum (map (fun v => ind (turned nb st k v)) l)) by (intros l0; apply zsum_nonneg; intros x _; destruct (turned nb st k x); cbn; lia). pose proof (N l). pose proof (N l'). lia. }
    destruct (Hcount (S K) ltac:(lia)) as [(j & Hj & E)|Hc]; [apply (Hall (K - j)%nat j ltac:(lia) E)|].
    exfalso. pose proof (energy_run st (S K) Hb ltac:(intros k Hk; apply V; lia)) as He.
    assert (Z.of_nat (length vs) <= zsum (map (fun v => Z.abs (pull nb (st 0%nat) v)) vs)); [|lia].
    assert (E1 : forall l : list Z, Z.of_nat (length l) = zsum (map (fun _ => 1) l)) by (clear; induction l as [|a l IH]; [reflexivity|]; cbn [map length]; rewrite zsum_cons; lia). rewrite E1.
    apply zsum_le. intros v Hv. specialize (Ht 0%nat v ltac:(lia) Hv). rewrite tied_pull in Ht. apply Z.eqb_neq in Ht. lia.
  Qed.
End Energy.
