(** * Running an asynchronous rule that reads only the node's own activity and its neighbours' activities *)
From Verif Require Import Py PyFacts ListFacts Network Evolve EvolveSpec EvolveProofs EvolveStatic Async AsyncProofs CaSpec CaRun SeqSpec.
Open Scope string_scope.
Open Scope list_scope.
Open Scope Z_scope.

Section Run.
  Context {L V A U I BA BN : Type} `{EqD L} `{EqD A}.
  Context (W : env L V A BA BN).
  Notation network := (network L V).
  Notation acts := (dict L A).
  Notation ctx := (node_ctx L V A I).
  Notation args := (@args L V A (U * async L) I).
  Notation tick := (InStr "__timestep__").

  Theorem seq_run shuffle fuel (u0 : U) order (n : network) nb c T (g : args) h f (P : A -> Prop) (s : L -> A) :
    static g (async_call shuffle false (stateless h)) -> NoDup (nodes n) -> 1 <= T -> (Z.to_nat T <= fuel)%nat -> length (to_dict W c) = net_len n ->
    closed n -> (forall v, In v (nodes n) -> nbrs_of n v (nb v)) ->
    shows_cells (fun v => In v (nodes n)) (to_dict W c) s -> (forall v, In v (nodes n) -> P (s v)) ->
    computes nb (fun v => In v (nodes n)) P h f ->
    NoDup order -> incl order (nodes n) -> order <> [] ->
    exists hs, runs W fuel (u0, mkAsync order 0 0 0) n c T g hs /\ nth_error hs 0 = Some (to_dict W c) /\
      (forall k S, nth_error hs (Datatypes.S k) = Some S -> map fst S = nodes n) /\
      forall k S, nth_error hs k = Some S ->
        shows_cells (fun v => In v (nodes n)) S (seq_state nb f order k s) /\ forall v, In v (nodes n) -> P (seq_state nb f order k s v).
  Proof.
    intros Hst Hnd HT Hfuel Hlen Hcl Hnb Hs HP Hh Hno Hincl Hne.
    assert (Hl : length order <> 0%nat) by (destruct order; [congruence|discriminate]).
    set (st := fun k => seq_state nb f order k s).
    set (at_k := fun k => mkAsync order (k mod length order) 0 0).
    set (Good := fun (hs : list acts) => nth_error hs 0 = Some (to_dict W c) /\ (forall k S, nth_error hs (Datatypes.S k) = Some S -> map fst S = nodes n) /\
      forall k S, nth_error hs k = Some S -> shows_cells (fun v => In v (nodes n)) S (st k) /\ forall v, In v (nodes n) -> P (st k v)).
    destruct (static_run W fuel (u0, mkAsync order 0 0 0) n c T g (async_call shuffle false (stateless h))
      (fun hs ua => snd ua = at_k (length hs - 1)%nat /\ Good hs) Hst HT Hfuel Hlen) as (uf & traj & hs & E & Hlh & Hf & _ & H1 & H2 & H3).
    - split; [unfold at_k; cbn [snd length Nat.sub]; rewrite Nat.mod_0_l by exact Hl; reflexivity|]. split; [reflexivity|]. split; [intros [|k] S; discriminate|].
      intros [|k] S Ek; [injection Ek as <-; split; assumption|destruct k; discriminate].
    - intros mk tab hist S u [Hu (G1 & G2 & G3)] Hlt. destruct Hst as (_ & _ & Hp & Hm & _ & _).
      set (k := length hist). destruct u as [u a]. cbn [snd] in Hu. rewrite app_length in Hu. cbn [length] in Hu. replace (length hist + 1 - 1)%nat with k in Hu by (unfold k; lia).
      destruct (G3 k S) as [HS HPk]; [rewrite nth_error_app2, Nat.sub_diag by (unfold k; lia); reflexivity|].
      assert (Hcov : covers n S) by (intros v Hv; exists (st k v); apply HS; exact Hv).
      assert (Hcur : (k mod length order < length order)%nat) by (apply Nat.mod_upper_bound; exact Hl).
      destruct (nth_error order (k mod length order)) as [cc|] eqn:Ecc; [|apply nth_error_None in Ecc; lia].
      assert (Hstk : st (Datatypes.S k) = seq_next nb f cc (st k)) by (unfold st; cbn [seq_state]; rewrite Ecc; reflexivity).
      destruct (sweep_total W g mk (async_call shuffle false (stateless h)) (Z.of_nat k + 1) S n (past_of W (g_past g) (hist ++ [S])) tab (u, at_k k)
        (fun done ua curr => ua = (u, mid shuffle false (at_k k) done) /\ map fst curr = done /\ forall v, In v done -> dget curr v = Some (st (Datatypes.S k) v))
        Hm Hp Hcl Hcov) as (s' & Es & Ea & Er & _ & Hsu & Hkeys & Hvals).
      + split; [|split; [reflexivity|intros v []]]. f_equal. unfold mid, hits. cbn [filter length]. unfold at_k at 2 3 4 5 6. cbn [a_order a_curr a_draws].
        destruct (Nat.ltb_spec 0 (length order)); [reflexivity|lia].
      + intros done v rest ua curr x En (-> & Hk & Hd) Hx.
        assert (Hv : In v (nodes n)) by (rewrite En; apply in_or_app; right; left; reflexivity).
        assert (Hxl : x_label x = v) by exact (cf_label _ _ _ _ _ _ _ _ Hx).
        assert (Hxc : x_cur x = st k v).
        { pose proof (cf_cur _ _ _ _ _ _ _ _ Hx) as Ec. rewrite (HS v Hv) in Ec. congruence. }
        assert (Hna : x_nacts x = map (st k) (nb v)).
        { pose proof (cf_nbrs _ _ _ _ _ _ _ _ Hx) as Hn.
          apply (nacts_map (fun v => In v (nodes n)) S); [|exact HS|].
          - pose proof (cf_nacts _ _ _ _ _ _ _ _ Hx) as Hna. rewrite (nbrs_fun _ _ _ _ Hn (Hnb v Hv)) in Hna. exact Hna.
          - intros w Hw. destruct (Hcl v Hv) as (conn & l & _ & Hl' & Hi). rewrite (nbrs_fun _ _ _ _ (Hnb v Hv) Hl') in Hw. apply Hi. exact Hw. }
        assert (Hhx : h x = Ok (f v (st k v) (map (st k) (nb v))) ).
        { destruct (Hh x) as [Eh _]; rewrite ?Hxl, ?Hxc, ?Hna in *; try assumption.
          - apply HPk; exact Hv.
          - apply Forall_forall. intros a' Ha'. apply in_map_iff in Ha'. destruct Ha' as (w & <- & Hw). apply HPk. destruct (Hcl v Hv) as (conn & l & _ & Hl' & Hi). rewrite (nbrs_fun _ _ _ _ (Hnb v Hv) Hl') in Hw. apply Hi. exact Hw.
          - apply map_length. }
        assert (Ecall : exists uo o, async_call shuffle false (stateless h) (u, mid shuffle false (at_k k) done) x = Ok (uo, o)).
        { assert (Hmo : a_order (mid shuffle false (at_k k) done) = order /\ (a_curr (mid shuffle false (at_k k) done) < length order)%nat).
          { unfold mid, next_async, at_k. cbn [a_order a_curr]. destruct (hits order done <? length order)%nat; cbn [a_order a_curr]; split; try reflexivity; [exact Hcur|apply Nat.mod_upper_bound; exact Hl]. }
          destruct Hmo as [Ho Hc']. unfold async_call.
          set (a1 := if in_dec eqd _ _ then _ else _).
          assert (Ha1 : a_order a1 = order /\ a_curr a1 = a_curr (mid shuffle false (at_k k) done)) by (unfold a1; destruct (in_dec eqd (x_label x) (a_order (mid shuffle false (at_k k) done))); cbn [a_order a_curr]; split; try reflexivity; exact Ho).
          destruct Ha1 as [-> ->]. destruct (nth_error order (a_curr (mid shuffle false (at_k k) done))) as [c1|] eqn:E1; [|apply nth_error_None in E1; lia]. cbn [of_opt rbind].
          unfold stateless. rewrite Hhx. destruct (eqd (x_label x) c1); cbn [rbind]; do 2 eexists; reflexivity. }
        destruct Ecall as ([u1 a1] & o & Ecall).
        destruct (async_call_mid shuffle false (stateless h) (at_k k) cc (nodes n) done v rest u x (u1, a1) o En Hnd Hno Hincl Ecc (or_introl eq_refl) Hxl Ecall) as [Esnd Ho]. cbn [fst snd] in *.
        assert (Hnew : ~ In v done) by (rewrite En in Hnd; apply NoDup_remove_2 in Hnd; intros Hin; apply Hnd, in_or_app; left; assumption).
        assert (Hout : u1 = u /\ o = mkOut (st (Datatypes.S k) v) [] []).
        { rewrite Hstk. unfold seq_next. destruct (eqd v cc) as [->|Hvc].
          - unfold stateless in Ho. rewrite Hhx in Ho. cbn [rbind] in Ho. injection Ho as <- <-. auto.
          - destruct Ho as [-> ->]. rewrite Hxc. auto. }
        destruct Hout as [-> ->]. exists (u, a1), (st (Datatypes.S k) v). split; [exact Ecall|]. split; [congruence|]. split.
        * change (map fst (dset curr v (st (Datatypes.S k) v))) with (dkeys (dset curr v (st (Datatypes.S k) v))). rewrite dkeys_dset. assert (Em : dmem curr v = false) by (apply dmem_false; unfold dkeys; rewrite Hk; assumption). rewrite Em. unfold dkeys. rewrite Hk. reflexivity.
        * intros w Hw. rewrite dget_dset. destruct (eqd w v) as [->|Hwv]; [reflexivity|]. apply in_app_or in Hw. destruct Hw as [Hw|[Hw|[]]]; [auto|congruence].
      + exists s'. rewrite <- Hu in Es. split; [exact Es|]. split; [exact Ea|]. split; [exact Er|]. split.
        * rewrite Hsu. cbn [snd]. unfold mid. change (a_order (at_k k)) with order. rewrite (hits_all order (nodes n) Hno Hnd Hincl). rewrite Nat.ltb_irrefl. unfold next_async, at_k. cbn [a_order a_curr a_draws]. f_equal.
          rewrite !app_length. cbn [length]. replace (length hist + 1 + 1 - 1)%nat with (k + 1)%nat by (unfold k; lia). rewrite Nat.add_mod_idemp_l by exact Hl. reflexivity.
        * assert (Hlast : forall i S1, nth_error ((hist ++ [S]) ++ [s_curr s']) i = Some S1 -> nth_error (hist ++ [S]) i = Some S1 \/ (i = Datatypes.S k /\ S1 = s_curr s')).
          { intros i S1 Ei. destruct (Nat.lt_ge_cases i (length (hist ++ [S]))) as [Hi|Hi]; [left; rewrite nth_error_app1 in Ei by exact Hi; exact Ei|]. right.
            rewrite nth_error_app2 in Ei by exact Hi. rewrite app_length in *. cbn [length] in *. destruct (i - (length hist + 1))%nat as [|j] eqn:Ej; [|destruct j; discriminate]. injection Ei as <-. split; [unfold k; lia|reflexivity]. }
          split; [rewrite nth_error_app1 by (rewrite app_length; cbn [length]; lia); exact G1|]. split.
          -- intros i S1 Ei. destruct (Hlast _ _ Ei) as [Ei'|[_ ->]]; [eapply G2; exact Ei'|exact Hkeys].
          -- intros i S1 Ei. destruct (Hlast _ _ Ei) as [Ei'|[-> ->]]; [apply G3; exact Ei'|]. split; [intros v Hv; apply Hvals; exact Hv|].
             intros v Hv. rewrite Hstk. unfold seq_next. destruct (eqd v cc) as [->|Hvc]; [|apply HPk; exact Hv].
             set (x := mkCtx cc 0 [] [] (map (st k) (nb cc)) [] (st k cc) None None : ctx). refine (proj2 (Hh x Hv (HPk cc Hv) _ (map_length _ _))).
             apply Forall_forall. intros a' Ha'. apply in_map_iff in Ha'. destruct Ha' as (w & <- & Hw). apply HPk. destruct (Hcl cc Hv) as (conn & l & _ & Hl' & Hi). rewrite (nbrs_fun _ _ _ _ (Hnb cc Hv) Hl') in Hw. apply Hi. exact Hw.
    - exists hs. split; [exists uf, traj; auto|]. auto.
  Qed.
End Run.
