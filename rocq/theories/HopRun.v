(** * Running an asynchronous rule whose order is shuffled after every cycle

    A cycle of AsynchronousRule is one timestep: the k-th timestep updates the entry (k mod n) of the k-th shuffle. *)
From Verif Require Import Py PyFacts ListFacts Network Evolve EvolveSpec EvolveProofs EvolveStatic Async AsyncProofs CaSpec CaRun HopMemSpec.
Open Scope string_scope.
Open Scope list_scope.
Open Scope Z_scope.

Section Run.
  Context {L V A U I BA BN : Type} `{EqD L} `{EqD A}.
  Context (W : env L V A BA BN).
  Notation network := (network L V).
  Notation acts := (dict L A).
  Notation ctx := (node_ctx L V A I).
  Notation args := (@args L V A (U * async L) I).
  Notation tick := (InStr "__timestep__").

  Theorem rand_run (shuffle : nat -> nat -> list L) fuel (u0 : U) (n : network) c T (g : args) h (F : (L -> A) -> L -> A) (s : L -> A) :
    static g (async_call shuffle true (stateless h)) -> NoDup (nodes n) -> nodes n <> [] -> 1 <= T -> (Z.to_nat T <= fuel)%nat -> length (to_dict W c) = net_len n ->
    closed n -> (forall v, In v (nodes n) -> dget (to_dict W c) v = Some (s v)) ->
    (forall S t past v x s', In v (nodes n) -> ctx_for W n S t past tick v x -> (forall w, In w (nodes n) -> dget S w = Some (s' w)) -> h x = Ok (F s' v)) ->
    (forall d, Permutation (shuffle d (length (nodes n))) (nodes n)) ->
    exists hs, runs W fuel (u0, mkAsync (shuffle 0%nat (length (nodes n))) 0 0 1) n c T g hs /\ nth_error hs 0 = Some (to_dict W c) /\
      (forall k S, nth_error hs (Datatypes.S k) = Some S -> map fst S = nodes n) /\
      forall k S, nth_error hs k = Some S -> forall v, In v (nodes n) -> dget S v = Some (by_turns F (fun k => nth_error (shuffle k (length (nodes n))) (k mod length (nodes n))) k s v).
  Proof.
    intros Hst Hnd Hne HT Hfuel Hlen Hcl Hs Hh Hsh. set (m := length (nodes n)) in *.
    assert (Hm0 : m <> 0%nat) by (unfold m; destruct (nodes n); [congruence|discriminate]).
    set (st := fun k => by_turns F (fun k => nth_error (shuffle k m) (k mod m)) k s).
    set (at_k := fun k => mkAsync (shuffle k m) (k mod m) 0 (Datatypes.S k)).
    assert (Hsl : forall k, length (shuffle k m) = m) by (intros k; apply (Permutation_length (Hsh k))).
    set (Good := fun (hs : list acts) => nth_error hs 0 = Some (to_dict W c) /\ (forall k S, nth_error hs (Datatypes.S k) = Some S -> map fst S = nodes n) /\
      forall k S, nth_error hs k = Some S -> forall v, In v (nodes n) -> dget S v = Some (st k v)).
    destruct (static_run W fuel (u0, mkAsync (shuffle 0%nat m) 0 0 1) n c T g (async_call shuffle true (stateless h))
      (fun hs ua => snd ua = at_k (length hs - 1)%nat /\ Good hs) Hst HT Hfuel Hlen) as (uf & traj & hs & E & Hlh & Hf & _ & H1 & H2 & H3).
    - split; [unfold at_k; cbn [snd length Nat.sub]; rewrite Nat.mod_0_l by exact Hm0; reflexivity|]. split; [reflexivity|]. split; [intros [|k] S; discriminate|].
      intros [|k] S Ek; [injection Ek as <-; assumption|destruct k; discriminate].
    - intros mk tab hist S u [Hu (G1 & G2 & G3)] Hlt. destruct Hst as (_ & _ & Hp & Hm & _ & _).
      set (k := length hist). destruct u as [u a]. cbn [snd] in Hu. rewrite app_length in Hu. cbn [length] in Hu. replace (length hist + 1 - 1)%nat with k in Hu by (unfold k; lia).
      assert (HS : forall v, In v (nodes n) -> dget S v = Some (st k v)) by (apply G3; rewrite nth_error_app2, Nat.sub_diag by (unfold k; lia); reflexivity).
      assert (Hcov : covers n S) by (intros v Hv; exists (st k v); apply HS; exact Hv).
      assert (Hcur : (k mod m < m)%nat) by (apply Nat.mod_upper_bound; exact Hm0).
      destruct (nth_error (shuffle k m) (k mod m)) as [cc|] eqn:Ecc; [|apply nth_error_None in Ecc; rewrite Hsl in Ecc; lia].
      assert (Hstk : st (Datatypes.S k) = fun v => if eqd v cc then F (st k) cc else st k v) by (unfold st; cbn [by_turns]; rewrite Ecc; reflexivity).
      assert (Hno : NoDup (shuffle k m)) by (eapply Permutation_NoDup; [symmetry; apply Hsh|exact Hnd]).
      assert (Hincl : incl (shuffle k m) (nodes n)) by (intros v Hv; eapply Permutation_in; [apply Hsh|exact Hv]).
      assert (Hx0 : mid shuffle true (at_k k) [] = at_k k) by (unfold mid, hits; cbn [filter length]; unfold at_k at 1; cbn [a_order]; rewrite Hsl; destruct (Nat.ltb_spec 0 m); [reflexivity|lia]).
      destruct (sweep_total W g mk (async_call shuffle true (stateless h)) (Z.of_nat k + 1) S n (past_of W (g_past g) (hist ++ [S])) tab (u, at_k k)
        (fun done ua curr => ua = (u, mid shuffle true (at_k k) done) /\ map fst curr = done /\ forall v, In v done -> dget curr v = Some (st (Datatypes.S k) v))
        Hm Hp Hcl Hcov) as (s' & Es & Ea & Er & _ & Hsu & Hkeys & Hvals).
      + split; [rewrite Hx0; reflexivity|split; [reflexivity|intros v []]].
      + intros done v rest ua curr x En (-> & Hk & Hd) Hx.
        assert (Hv : In v (nodes n)) by (rewrite En; apply in_or_app; right; left; reflexivity).
        assert (Hxl : x_label x = v) by exact (cf_label _ _ _ _ _ _ _ _ Hx).
        assert (Hxc : x_cur x = st k v).
        { pose proof (cf_cur _ _ _ _ _ _ _ _ Hx) as Ec. rewrite (HS v Hv) in Ec. congruence. }
        assert (Hhx : h x = Ok (F (st k) v)) by exact (Hh S _ _ v x (st k) Hv Hx HS).
        assert (Ecall : exists uo o, async_call shuffle true (stateless h) (u, mid shuffle true (at_k k) done) x = Ok (uo, o)).
        { assert (Hmo : exists k', a_order (mid shuffle true (at_k k) done) = shuffle k' m /\ (a_curr (mid shuffle true (at_k k) done) < m)%nat).
          { unfold mid, next_async, at_k. cbn [a_order a_curr a_draws]. rewrite Hsl. destruct (hits (shuffle k m) done <? m)%nat; cbn [a_order a_curr]; eexists; split; try reflexivity; [exact Hcur|apply Nat.mod_upper_bound; exact Hm0]. }
          destruct Hmo as (k' & Ho & Hc'). unfold async_call.
          set (a1 := if in_dec eqd _ _ then _ else _).
          assert (Ha1 : a_order a1 = shuffle k' m /\ a_curr a1 = a_curr (mid shuffle true (at_k k) done)) by (unfold a1; destruct (in_dec eqd (x_label x) (a_order (mid shuffle true (at_k k) done))); cbn [a_order a_curr]; split; try reflexivity; exact Ho).
          destruct Ha1 as [-> ->]. destruct (nth_error (shuffle k' m) (a_curr (mid shuffle true (at_k k) done))) as [c1|] eqn:E1; [|apply nth_error_None in E1; rewrite Hsl in E1; lia]. cbn [of_opt rbind].
          unfold stateless. rewrite Hhx. destruct (eqd (x_label x) c1); cbn [rbind]; do 2 eexists; reflexivity. }
        destruct Ecall as ([u1 a1] & o & Ecall).
        destruct (async_call_mid shuffle true (stateless h) (at_k k) cc (nodes n) done v rest u x (u1, a1) o En Hnd Hno Hincl Ecc (or_intror (Hsh k)) Hxl Ecall) as [Esnd Ho]. cbn [fst snd] in *.
        assert (Hnew : ~ In v done) by (rewrite En in Hnd; apply NoDup_remove_2 in Hnd; intros Hin; apply Hnd, in_or_app; left; assumption).
        assert (Hout : u1 = u /\ o = mkOut (st (Datatypes.S k) v) [] []).
        { rewrite Hstk. destruct (eqd v cc) as [->|Hvc].
          - unfold stateless in Ho. rewrite Hhx in Ho. cbn [rbind] in Ho. injection Ho as <- <-. auto.
          - destruct Ho as [-> ->]. rewrite Hxc. auto. }
        destruct Hout as [-> ->]. exists (u, a1), (st (Datatypes.S k) v). split; [exact Ecall|]. split; [congruence|]. split.
        * change (map fst (dset curr v (st (Datatypes.S k) v))) with (dkeys (dset curr v (st (Datatypes.S k) v))). rewrite dkeys_dset. assert (Em : dmem curr v = false) by (apply dmem_false; unfold dkeys; rewrite Hk; assumption). rewrite Em. unfold dkeys. rewrite Hk. reflexivity.
        * intros w Hw. rewrite dget_dset. destruct (eqd w v) as [->|Hwv]; [reflexivity|]. apply in_app_or in Hw. destruct Hw as [Hw|[Hw|[]]]; [auto|congruence].
      + exists s'. rewrite <- Hu in Es. split; [exact Es|]. split; [exact Ea|]. split; [exact Er|]. split.
        * rewrite Hsu. cbn [snd]. unfold mid. change (a_order (at_k k)) with (shuffle k m). rewrite (hits_all (shuffle k m) (nodes n) Hno Hnd Hincl). rewrite Nat.ltb_irrefl. unfold next_async, at_k. cbn [a_order a_curr a_draws]. rewrite Hsl.
          rewrite !app_length. cbn [length]. replace (length hist + 1 + 1 - 1)%nat with (Datatypes.S k) by (unfold k; lia). f_equal. rewrite Nat.add_mod_idemp_l by exact Hm0. f_equal. lia.
        * assert (Hlast : forall i S1, nth_error ((hist ++ [S]) ++ [s_curr s']) i = Some S1 -> nth_error (hist ++ [S]) i = Some S1 \/ (i = Datatypes.S k /\ S1 = s_curr s')).
          { intros i S1 Ei. destruct (Nat.lt_ge_cases i (length (hist ++ [S]))) as [Hi|Hi]; [left; rewrite nth_error_app1 in Ei by exact Hi; exact Ei|]. right.
            rewrite nth_error_app2 in Ei by exact Hi. rewrite app_length in *. cbn [length] in *. destruct (i - (length hist + 1))%nat as [|j] eqn:Ej; [|destruct j; discriminate]. injection Ei as <-. split; [unfold k; lia|reflexivity]. }
          split; [rewrite nth_error_app1 by (rewrite app_length; cbn [length]; lia); exact G1|]. split.
          -- intros i S1 Ei. destruct (Hlast _ _ Ei) as [Ei'|[_ ->]]; [eapply G2; exact Ei'|exact Hkeys].
          -- intros i S1 Ei. destruct (Hlast _ _ Ei) as [Ei'|[-> ->]]; [apply G3; exact Ei'|]. exact Hvals.
    - exists hs. split; [exists uf, traj; auto|]. auto.
  Qed.
End Run.
