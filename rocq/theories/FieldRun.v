(** * Runs on a network that does not change, as the iterates of a map on fields (functions from labels to activities);
    the rule may read the edges of its node and the activities of any node *)
From Verif Require Import Py PyFacts ListFacts Network Evolve EvolveSpec EvolveProofs EvolveStatic CaSpec CaRun.
Open Scope string_scope.
Open Scope list_scope.
Open Scope Z_scope.

Section Field.
  Context {L V A U I BA BN : Type} `{EqD L} `{EqD A}.
  Notation env := (env L V A BA BN).
  Notation ctx := (node_ctx L V A I).
  Notation args := (@args L V A U I).
  Notation field := (L -> A).

  Definition field_state (F : L -> field -> A) (k : nat) (s : field) : field := Nat.iter k (fun s v => F v s) s.
  Lemma field_state_S F k s : field_state F (S k) s = fun v => F v (field_state F k s).
  Proof. reflexivity. Qed.

  Theorem field_run (W : env) fuel (u0 : U) (n : network L V) c T (g : args) h (F : L -> field -> A) (s : field) :
    static g (stateless h) -> NoDup (nodes n) -> 1 <= T -> (Z.to_nat T <= fuel)%nat -> length (to_dict W c) = net_len n ->
    closed n -> shows_cells (fun v => In v (nodes n)) (to_dict W c) s ->
    (forall S s t past v (x : ctx), shows_cells (fun v => In v (nodes n)) S s -> In v (nodes n) -> ctx_for W n S t past (InStr "__timestep__") v x -> h x = Ok (F v s)) ->
    exists hs, runs W fuel u0 n c T g hs /\ nth_error hs 0 = Some (to_dict W c) /\
      (forall k S, nth_error hs (Datatypes.S k) = Some S -> map fst S = nodes n) /\
      forall k S, nth_error hs k = Some S -> shows_cells (fun v => In v (nodes n)) S (field_state F k s).
  Proof.
    intros Hst Hnd HT Hf Hlen Hcl Hs Hh.
    set (Inv := fun hist : list (dict L A) => forall k S, nth_error hist k = Some S -> shows_cells (fun v => In v (nodes n)) S (field_state F k s)).
    destruct (stateless_run W fuel u0 n c T g h Inv Hst Hnd HT Hf Hlen Hcl) as (uf & traj & hs & E & El & Hshow & Hi & Hz & Hsyn).
    - intros v Hv. exists (s v). apply Hs. assumption.
    - intros [|k] S E; [|destruct k; discriminate]. injection E as <-. exact Hs.
    - intros hist S v x Hi Hv Hx. eexists. eapply Hh; [|exact Hv|exact Hx]. apply (Hi (length hist)). rewrite nth_error_app2, Nat.sub_diag by lia. reflexivity.
    - intros hist S S' Hi Hcov [Hkeys Hu] k S1 E1. destruct (Nat.lt_ge_cases k (length (hist ++ [S]))) as [Hlt|Hge].
      + rewrite nth_error_app1 in E1 by assumption. apply (Hi k). assumption.
      + rewrite nth_error_app2 in E1 by assumption. destruct (k - length (hist ++ [S]))%nat as [|m] eqn:Em; [|destruct m; discriminate]. injection E1 as <-.
        assert (Ek : k = Datatypes.S (length hist)) by (rewrite app_length in *; cbn [length] in *; lia). subst k.
        assert (HS : shows_cells (fun v => In v (nodes n)) S (field_state F (length hist) s)) by (apply Hi; rewrite nth_error_app2, Nat.sub_diag by lia; reflexivity).
        intros v Hv. destruct (Hu v Hv) as (x & a & a' & Hx & Ea & Eq & Ed). rewrite (Hh _ _ _ _ _ _ HS Hv Hx) in Ea. injection Ea as <-. subst a'. rewrite Ed. reflexivity.
    - exists hs. split; [exists uf, traj; auto|]. split; [assumption|]. split; [|assumption].
      intros k S Ek. destruct (nth_error hs k) as [S0|] eqn:E0; [|exfalso; apply nth_error_None in E0; assert (nth_error hs (Datatypes.S k) <> None) as Hne by congruence; apply nth_error_Some in Hne; lia].
      apply (Hsyn k S0 S E0 Ek).
  Qed.
End Field.
