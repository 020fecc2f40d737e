(** * Explicit schemes on a ring: runs as sequences of fields, sums over the ring *)
From Coq Require Import QArith Lqa Permutation.
From Verif Require Import Py PyFacts ListFacts Network Topology TopologySpec Evolve EvolveSpec EvolveProofs EvolveStatic CaSpec CaRun CaNets PropCa Fungal FungalSpec FungalProofs2 Continuous.
Open Scope string_scope.
Open Scope list_scope.
Open Scope Z_scope.

(** the value of a cell *)
Definition val (S : dict Z Q) (v : Z) : Q := match dget S v with Some a => a | None => 0 end.
(** the sum of [f] over the cells of a ring of [n] cells *)
Definition around (n : Z) (f : Z -> Q) : Q := Qsum (map f (zrange 0 n)).
(** every cell has a value *)
Definition full (n : Z) (S : dict Z Q) : Prop := forall v, 0 <= v < n -> dget S v = Some (val S v).

Lemma around_ext n f g : (forall v, 0 <= v < n -> (f v == g v)%Q) -> (around n f == around n g)%Q.
Proof. intros H. apply Qsum_ext. intros v Hv. apply H, in_zrange. assumption. Qed.
Lemma Qsum_add {X} (f g : X -> Q) l : (Qsum (map (fun v => f v + g v) l) == Qsum (map f l) + Qsum (map g l))%Q.
Proof. induction l as [|a l IH]; cbn [map Qsum fold_right]; [reflexivity|]. unfold Qsum in IH. rewrite IH. ring. Qed.
Lemma Qsum_scale {X} c (f : X -> Q) l : (Qsum (map (fun v => c * f v) l) == c * Qsum (map f l))%Q.
Proof. induction l as [|a l IH]; cbn [map Qsum fold_right]; [ring|]. unfold Qsum in IH. rewrite IH. ring. Qed.
Lemma Qsum_le {X} (f g : X -> Q) l : (forall v, In v l -> (f v <= g v)%Q) -> (Qsum (map f l) <= Qsum (map g l))%Q.
Proof.
  induction l as [|a l IH]; intros H; [apply Qle_refl|]. change ((f a + Qsum (map f l) <= g a + Qsum (map g l))%Q).
  apply Qplus_le_compat; [apply H; left; reflexivity|apply IH; intros; apply H; right; assumption].
Qed.
Lemma around_add n f g : (around n (fun v => f v + g v) == around n f + around n g)%Q.
Proof. apply Qsum_add. Qed.
Lemma around_scale n c f : (around n (fun v => c * f v) == c * around n f)%Q.
Proof. apply Qsum_scale. Qed.
Lemma around_le n f g : (forall v, 0 <= v < n -> (f v <= g v)%Q) -> (around n f <= around n g)%Q.
Proof. intros H. apply Qsum_le. intros v Hv. apply H, in_zrange. assumption. Qed.

(** rotating the ring does not change a sum *)
Lemma around_shift n j f : 0 < n -> (around n (fun v => f ((v + j) mod n)) == around n f)%Q.
Proof.
  intros Hn. unfold around. rewrite <- (map_map (fun v => (v + j) mod n) f). apply Qsum_perm, Permutation_map.
  apply NoDup_Permutation_bis.
  - apply NoDup_map_on; [|apply NoDup_zrange]. intros x y Hx Hy E. apply in_zrange in Hx, Hy. eapply mod_cancel; eassumption.
  - rewrite map_length. lia.
  - intros x Hx. apply in_map_iff in Hx. destruct Hx as (v & <- & _). apply in_zrange. apply Z.mod_pos_bound. assumption.
Qed.

Section Run.
  Context {U I BA BN : Type}.
  Notation env := (env Z Z Q BA BN).
  Notation ctx := (node_ctx Z Z Q I).
  Notation args := (@args Z Z Q U I).
  Context (W : env).

  Lemma val_full n S : (forall v, 0 <= v < n -> exists a, dget S v = Some a) -> full n S.
  Proof. intros H v Hv. destruct (H v Hv) as [a E]. unfold val. rewrite E. reflexivity. Qed.

  (** what a context shows *)
  Lemma ctx_values net n S t past inp v (x : ctx) : 0 < n -> lattice net n (ring_nb n 1) -> full n S -> 0 <= v < n -> ctx_for W net S t past inp v x ->
    x_label x = v /\ x_cur x = val S v /\ (forall w, 0 <= w < n -> activity_of x w = Ok (val S w)) /\
    x_nacts x = [val S ((v - 1) mod n); val S v; val S ((v + 1) mod n)] /\ x_past x = past.
  Proof.
    intros Hn (Hnd & Hnodes & Hcl & Hlen & Hnb & Hub) HS Hv Hx. destruct Hx as [Elab _ Eacts Hn' Hacts _ Hcur Hpast _].
    split; [assumption|]. split; [rewrite (HS v Hv) in Hcur; congruence|].
    split; [intros w Hw; unfold activity_of; rewrite Eacts, (HS w Hw); reflexivity|]. split; [|assumption].
    rewrite (nbrs_fun net v _ _ Hn' (Hnb v Hv)) in Hacts.
    rewrite (nacts_map (fun w => 0 <= w < n) S (val S) (ring_nb n 1 v) (x_nacts x) Hacts HS (fun w Hw => Hub v w Hv Hw)).
    unfold ring_nb. change (zrange (- (1)) (1 + 1)) with [-1; 0; 1]. cbn [map]. rewrite Z.add_0_r, (Z.mod_small v n) by assumption. reflexivity.
  Qed.

  Theorem ring_run fuel (u0 : U) n c T (g : args) h :
    3 <= n -> static g (stateless h) -> 1 <= T -> (Z.to_nat T <= fuel)%nat -> config W n (fun _ => True) c ->
    (forall net hist S v (x : ctx), lattice net n (ring_nb n 1) -> Forall (full n) (hist ++ [S]) -> 0 <= v < n ->
       ctx_for W net S (Z.of_nat (length hist) + 1) (past_of W (g_past g) (hist ++ [S])) (InStr "__timestep__") v x -> exists a, h x = Ok a) ->
    exists net hs, cellular_automaton n 1 true = Ok net /\ lattice net n (ring_nb n 1) /\ runs W fuel u0 net c T g hs /\
      nth_error hs 0 = Some (to_dict W c) /\ Forall (full n) hs /\ synchronous W h (g_past g) net hs.
  Proof.
    intros Hn Hst HT Hf [Hl Hc] Htot. destruct (ring_lattice n 1 Hn ltac:(lia) ltac:(lia)) as (net & E & Hlat). exists net.
    assert (Hlat' := Hlat). destruct Hlat' as (Hnd & Hnodes & Hcl & Hlen & Hnb & Hub).
    destruct (stateless_run W fuel u0 net c T g h (Forall (full n)) Hst Hnd HT Hf ltac:(lia) Hcl) as (uf & traj & hs & Er & El & Hshow & Hi & Hz & Hsyn).
    - intros v Hv. destruct (Hc v (proj1 (Hnodes v) Hv)) as (a & Ea & _). exists a. assumption.
    - constructor; [|constructor]. apply val_full. intros v Hv. destruct (Hc v Hv) as (a & Ea & _). exists a. assumption.
    - intros hist S v x Hi Hv Hx. eapply Htot; [exact Hlat|exact Hi|apply Hnodes; exact Hv|exact Hx].
    - intros hist S S' Hi Hcov _. apply Forall_app. split; [assumption|]. constructor; [|constructor]. apply val_full. intros v Hv. apply Hcov, Hnodes. assumption.
    - exists hs. split; [assumption|]. split; [assumption|]. split; [exists uf, traj; auto|]. auto.
  Qed.

  (** a rule that computes [f] of the values to the left, here and to the right *)
  Theorem explicit_run fuel (u0 : U) n c T (g : args) h (f : Q -> Q -> Q -> Q) :
    3 <= n -> static g (stateless h) -> 1 <= T -> (Z.to_nat T <= fuel)%nat -> config W n (fun _ => True) c ->
    (forall (x : ctx) S v, 0 <= v < n -> x_label x = v -> x_cur x = val S v -> (forall w, 0 <= w < n -> activity_of x w = Ok (val S w)) ->
       x_nacts x = [val S ((v - 1) mod n); val S v; val S ((v + 1) mod n)] -> h x = Ok (f (val S ((v - 1) mod n)) (val S v) (val S ((v + 1) mod n)))) ->
    exists net hs, cellular_automaton n 1 true = Ok net /\ runs W fuel u0 net c T g hs /\ nth_error hs 0 = Some (to_dict W c) /\ Forall (full n) hs /\
      forall k S S' v, nth_error hs k = Some S -> nth_error hs (Datatypes.S k) = Some S' -> 0 <= v < n ->
        val S' v = f (val S ((v - 1) mod n)) (val S v) (val S ((v + 1) mod n)).
  Proof.
    intros Hn Hst HT Hf Hc Hh. destruct (ring_run fuel u0 n c T g h Hn Hst HT Hf Hc) as (net & hs & E & Hlat & Hrun & Hz & Hfull & Hsyn).
    - intros net hist S v x Hlat Hfull Hv Hx. apply Forall_app in Hfull. destruct Hfull as [_ HS]. apply Forall_inv in HS.
      destruct (ctx_values net n S _ _ _ v x ltac:(lia) Hlat HS Hv Hx) as (E1 & E2 & E3 & E4 & _). eexists. apply (Hh x S v); assumption.
    - exists net, hs. split; [assumption|]. split; [assumption|]. split; [assumption|]. split; [assumption|]. intros k S S' v Ek Ek' Hv.
      assert (HS : full n S) by (rewrite Forall_forall in Hfull; apply Hfull; eapply nth_error_In; exact Ek).
      destruct (Hsyn k S S' Ek Ek') as [_ Hu]. destruct (Hu v) as (x & a & a' & Hx & Ea & Eq & Ed); [destruct Hlat as (_ & Hnodes & _); apply Hnodes; assumption|].
      destruct (ctx_values net n S _ _ _ v x ltac:(lia) Hlat HS Hv Hx) as (E1 & E2 & E3 & E4 & _). rewrite (Hh x S v) in Ea by assumption. injection Ea as <-.
      subst a'. unfold val at 1. rewrite Ed. reflexivity.
  Qed.
End Run.
