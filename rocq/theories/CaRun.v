(** * Running a cellular automaton: rules that read only the node's own activity and its neighbours' activities *)
From Verif Require Import Py PyFacts ListFacts Network Evolve EvolveSpec EvolveProofs EvolveStatic CaSpec.
Open Scope string_scope.
Open Scope list_scope.
Open Scope Z_scope.

Lemma within_mono {L} (nb : L -> list L) k v w : within nb k v w -> forall k', (k <= k')%nat -> within nb k' v w.
Proof. induction 1 as [|k v u w Hu Hw IH]; intros k' Hk; [constructor|]. destruct k'; [lia|]. econstructor; [exact Hu|]. apply IH. lia. Qed.

Lemma ca_state_S {L A} (nb : L -> list L) f k (s : L -> A) : ca_state nb f (S k) s = ca_next nb f (ca_state nb f k s).
Proof. reflexivity. Qed.
Lemma ca_state_add {L A} (nb : L -> list L) f k l (s : L -> A) : ca_state nb f (k + l) s = ca_state nb f l (ca_state nb f k s).
Proof. rewrite Nat.add_comm. induction l as [|l IH]; [reflexivity|]. cbn [Nat.add]. rewrite !ca_state_S, IH. reflexivity. Qed.

Lemma ca_next_ext {L A} (D : L -> Prop) (nb : L -> list L) f (s s' : L -> A) :
  (forall v w, D v -> In w (nb v) -> D w) -> (forall v, D v -> s v = s' v) -> forall v, D v -> ca_next nb f s v = ca_next nb f s' v.
Proof. intros Hc E v Hv. unfold ca_next. rewrite (E v Hv). f_equal. apply map_ext_in. intros w Hw. apply E. eapply Hc; eassumption. Qed.

(** a cell only depends on the cells within as many links as there were steps *)
Lemma ca_light_cone {L A} (nb : L -> list L) f (s s' : L -> A) k v : (forall w, within nb k v w -> s w = s' w) -> ca_state nb f k s v = ca_state nb f k s' v.
Proof.
  revert v. induction k as [|k IH]; intros v Hv; [apply Hv; constructor|]. rewrite !ca_state_S. unfold ca_next. f_equal.
  - apply IH. intros w Hw. apply Hv. eapply within_mono; [exact Hw|lia].
  - apply map_ext_in. intros u Hu. apply IH. intros w Hw. apply Hv. econstructor; eassumption.
Qed.

(** ** the run *)
Section Run.
  Context {L V A U I BA BN : Type} `{EqD L} `{EqD A}.
  Context (W : env L V A BA BN).
  Notation network := (network L V).
  Notation acts := (dict L A).
  Notation ctx := (node_ctx L V A I).
  Notation args := (@args L V A U I).

  (** the rule as a function *)
  Definition fun_of (h : ctx -> res A) (v : L) (a : A) (l : list A) : A :=
    match h (mkCtx v 0 [] [] l [] a None None) with Ok b => b | Err _ => a end.

  (** on the activities satisfying [P], the rule [h] computes [f] and stays inside [P] *)
  Definition computes (nb : L -> list L) (D : L -> Prop) (P : A -> Prop) (h : ctx -> res A) (f : L -> A -> list A -> A) : Prop :=
    forall x, D (x_label x) -> P (x_cur x) -> Forall P (x_nacts x) -> length (x_nacts x) = length (nb (x_label x)) ->
      h x = Ok (f (x_label x) (x_cur x) (x_nacts x)) /\ P (f (x_label x) (x_cur x) (x_nacts x)).

  Lemma local_computes nb (D : L -> Prop) P h : local_rule h -> (forall v, D v -> safe_rule P (length (nb v)) h) -> computes nb D P h (fun_of h).
  Proof.
    intros Hl Hs x Hd Hp Hf Hlen. destruct (Hs _ Hd x Hp Hf Hlen) as (a & E & Pa).
    assert (Ef : fun_of h (x_label x) (x_cur x) (x_nacts x) = a).
    { unfold fun_of. rewrite (Hl (mkCtx (x_label x) 0 [] [] (x_nacts x) [] (x_cur x) None None) x) by reflexivity. rewrite E. reflexivity. }
    rewrite Ef. auto.
  Qed.

  Lemma nbrs_fun (n : network) v l l' : nbrs_of n v l -> nbrs_of n v l' -> l = l'.
  Proof. unfold nbrs_of. destruct (net_rot n); [congruence|]. intros (i & E & ->) (j & E' & ->). congruence. Qed.

  Lemma nacts_map (D : L -> Prop) (S : acts) s l na : Forall2 (fun w a => dget S w = Some a) l na -> shows_cells D S s -> (forall w, In w l -> D w) -> na = map s l.
  Proof.
    intros Hf Hs. induction Hf as [|w a l na E Hf IH]; intros Hd; [reflexivity|]. cbn [map]. f_equal.
    - rewrite (Hs w) in E by (apply Hd; left; reflexivity). congruence.
    - apply IH. intros; apply Hd; right; assumption.
  Qed.

  Theorem ca_run fuel (u0 : U) (n : network) nb c T (g : args) h f (P : A -> Prop) (s : L -> A) :
    static g (stateless h) -> NoDup (nodes n) -> 1 <= T -> (Z.to_nat T <= fuel)%nat -> length (to_dict W c) = net_len n ->
    closed n -> (forall v, In v (nodes n) -> nbrs_of n v (nb v)) ->
    shows_cells (fun v => In v (nodes n)) (to_dict W c) s -> (forall v, In v (nodes n) -> P (s v)) ->
    computes nb (fun v => In v (nodes n)) P h f ->
    exists uf traj hs, evolve W fuel u0 n (Some c) (Some T) None g = Ok (uf, traj) /\ Z.of_nat (length hs) = T /\
      Forall2 (fun st S => activities W st = Ok (shown_acts S)) traj hs /\ nth_error hs 0 = Some (to_dict W c) /\
      (forall k S, nth_error hs (Datatypes.S k) = Some S -> map fst S = nodes n) /\
      forall k S, nth_error hs k = Some S -> shows_cells (fun v => In v (nodes n)) S (ca_state nb f k s).
  Proof.
    intros Hst Hnd HT Hf Hlen Hcl Hnb Hs HP Hh. set (D := fun v => In v (nodes n)) in *.
    assert (HDnb : forall v w, D v -> In w (nb v) -> D w).
    { intros v w Hv Hw. destruct (Hcl v Hv) as (conn & l & _ & Hl & Hi). rewrite (nbrs_fun n v _ _ (Hnb v Hv) Hl) in Hw. apply Hi. assumption. }
    set (Inv := fun hs : list acts => forall k S, nth_error hs k = Some S -> shows_cells D S (ca_state nb f k s)).
    assert (HPk : forall k v, D v -> P (ca_state nb f k s v) /\ forall x : ctx, x_label x = v -> x_cur x = ca_state nb f k s v -> x_nacts x = map (ca_state nb f k s) (nb v) -> h x = Ok (ca_state nb f (S k) s v)).
    { assert (Hstep : forall k, (forall v, D v -> P (ca_state nb f k s v)) -> forall v, D v -> forall x : ctx, x_label x = v -> x_cur x = ca_state nb f k s v -> x_nacts x = map (ca_state nb f k s) (nb v) -> h x = Ok (ca_state nb f (S k) s v) /\ P (ca_state nb f (S k) s v)).
      { intros k Hk v Hv x E1 E2 E3. rewrite !ca_state_S. unfold ca_next. rewrite <- E2, <- E3, <- E1. apply Hh.
        - rewrite E1. assumption.
        - rewrite E2. apply Hk. assumption.
        - rewrite E3. apply Forall_forall. intros a Ha. apply in_map_iff in Ha. destruct Ha as (w & <- & Hw). apply Hk. eapply HDnb; eassumption.
        - rewrite E3, E1. apply map_length. }
      assert (HPall : forall k v, D v -> P (ca_state nb f k s v)).
      { induction k as [|k IH]; intros v Hv; [apply HP; assumption|].
        destruct (Hcl v Hv) as (conn & l & _ & Hl & Hi).
        refine (proj2 (Hstep k IH v Hv (mkCtx v 0 [] [] (map (ca_state nb f k s) (nb v)) [] (ca_state nb f k s v) None None) eq_refl eq_refl eq_refl)). }
      intros k v Hv. split; [apply HPall; assumption|]. intros x E1 E2 E3. apply (Hstep k (HPall k) v Hv x E1 E2 E3). }
    assert (Hctx : forall k S t past inp v (x : ctx), shows_cells D S (ca_state nb f k s) -> D v -> ctx_for W n S t past inp v x -> h x = Ok (ca_state nb f (Datatypes.S k) s v)).
    { intros k S t past inp v x HS Hv Hx. destruct Hx as [Elab _ _ Hn Hacts _ Hcur _ _]. rewrite (nbrs_fun n v _ _ Hn (Hnb v Hv)) in Hacts.
      apply (HPk k v Hv); [assumption|rewrite (HS v Hv) in Hcur; congruence|]. eapply nacts_map; [exact Hacts|exact HS|]. intros w Hw. eapply HDnb; eassumption. }
    destruct (stateless_run W fuel u0 n c T g h Inv Hst Hnd HT Hf Hlen Hcl) as (uf & traj & hs & E & Hl & Hshow & Hi & Hz & Hsyn).
    - intros v Hv. exists (s v). apply Hs. assumption.
    - intros [|k] S E; [injection E as <-; exact Hs|destruct k; discriminate].
    - intros hist S v x Hi Hv Hx. eexists. eapply Hctx; [|exact Hv|exact Hx]. apply (Hi (length hist)). rewrite nth_error_app2, Nat.sub_diag by lia. reflexivity.
    - intros hist S S' Hi Hcov [_ Hu] k S1 E. destruct (lt_dec k (length (hist ++ [S]))).
      + rewrite nth_error_app1 in E by assumption. apply Hi. assumption.
      + rewrite nth_error_app2 in E by lia. destruct (k - length (hist ++ [S]))%nat as [|m] eqn:Ek; [|destruct m; discriminate]. injection E as <-.
        rewrite app_length in Ek, n0. cbn [length] in Ek, n0. assert (k = Datatypes.S (length hist)) by lia. subst k.
        intros v Hv. destruct (Hu v Hv) as (x & a & a' & Hx & Ea & -> & Ed). rewrite Ed. f_equal.
        assert (HS : shows_cells D S (ca_state nb f (length hist) s)) by (apply (Hi (length hist)); rewrite nth_error_app2, Nat.sub_diag by lia; reflexivity).
        rewrite (Hctx (length hist) S _ _ _ v x HS Hv Hx) in Ea. congruence.
    - exists uf, traj, hs. split; [assumption|]. split; [assumption|]. split; [assumption|]. split; [assumption|]. split; [|exact Hi].
      intros k S Ek. destruct (nth_error hs k) as [S0|] eqn:E0; [|apply nth_error_None in E0; assert (Datatypes.S k < length hs)%nat by (apply nth_error_Some; congruence); lia].
      apply (Hsyn k S0 S E0 Ek).
  Qed.
End Run.
