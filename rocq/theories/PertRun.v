(** * Perturbations: an evolution with a perturbation is the evolution of the rule followed by the perturbation; runs with a perturbation *)
From Verif Require Import Py PyFacts ListFacts Network Evolve EvolveSpec EvolveProofs EvolveProofs2 EvolveProofs3 EvolveStatic CaSpec CaRun PertSpec.
Open Scope string_scope.
Open Scope list_scope.
Open Scope Z_scope.

Section Fuse.
  Context {L V A U I BA BN : Type} `{EqD L} `{EqD A}.
  Context (W : env L V A BA BN).
  Notation network := (network L V).
  Notation acts := (dict L A).
  Notation ctx := (node_ctx L V A I).
  Notation args := (@args L V A U I).
  Notation rule := (@rule L V A U I).
  Notation perturbation := (@perturbation L A U I).

  (** the rule, then the perturbation of its result *)
  Definition then_perturb (r : rule) (p : perturbation) : rule := fun u x =>
    ' (u1, o) <- r u x ;; ' (u2, a) <- p u1 (mkPert (x_label x) (o_act o) (x_time x) (x_input x)) ;; Ok (u2, mkOut a (o_added o) (o_removed o)).
  (** the arguments with another rule and no perturbation *)
  Definition with_rule (g : args) (r : rule) : args :=
    mkArgs (Some r) (g_topo g) None (g_past g) (g_order g) (g_copy g) (g_comp g) (g_pact g) (g_pnet g) (g_memo g) (g_key g).

  Lemma dset_dset (d : acts) k a b : dset (dset d k a) k b = dset d k b.
  Proof. induction d as [|[k' c] d IH]; cbn [dset]; [destruct (eqd k k); [reflexivity|congruence]|]. destruct (eqd k k') as [->|Hne]; cbn [dset]; [destruct (eqd k' k'); [reflexivity|congruence]|]. destruct (eqd k k'); [congruence|]. rewrite IH. reflexivity. Qed.

  Lemma node_step_fused (g : args) mk r p t inp prev n past nmap s v : g_memo g = false -> g_rule g = Some r -> g_pert g = Some p -> no_self_removal g ->
    node_step W g mk r t inp prev n past nmap s v = node_step W (with_rule g (then_perturb r p)) mk (then_perturb r p) t inp prev n past nmap s v.
  Proof.
    intros Hm Hr Hp Hns. unfold node_step. destruct (node_context W t inp prev n past nmap v) as [x|e] eqn:Ex; [|reflexivity]. cbn [rbind].
    assert (Hx : x_label x = v /\ x_time x = t) by (unfold node_context in Ex; inv_bind Ex conn Ec; inv_bind Ex nbrs En; inv_bind Ex cur Ecu; inv_bind Ex na Ena; inv_bind Ex ni Eni; injection Ex as <-; auto).
    destruct Hx as [Hlab Ht]. unfold apply_rule. cbn [with_rule g_memo g_pert]. rewrite Hm, Hp. unfold then_perturb at 1.
    destruct (r (s_u s) x) as [[u1 o]|e] eqn:Er; [|reflexivity]. cbn [rbind].
    assert (Hno : existsb (eqb v) (o_removed o) = false).
    { destruct (existsb (eqb v) (o_removed o)) eqn:Ee; [|reflexivity]. exfalso. apply existsb_eqb_in in Ee. apply (Hns _ _ _ _ _ Hr Er). congruence. }
    rewrite Hno, dget_dset_eq. cbn [of_opt rbind]. rewrite Hlab, Ht. destruct (p u1 _) as [[u2 a']|e]; [|reflexivity]. cbn [rbind o_removed o_act o_added]. rewrite Hno, dset_dset. reflexivity.
  Qed.

  Lemma activities_fused (g : args) mk r p t inp u prev tab n past nmap : g_memo g = false -> g_rule g = Some r -> g_pert g = Some p -> no_self_removal g ->
    evolve_activities W g mk t inp u prev tab n past nmap = evolve_activities W (with_rule g (then_perturb r p)) mk t inp u prev tab n past nmap.
  Proof.
    intros Hm Hr Hp Hns. unfold evolve_activities. rewrite Hr. cbn [with_rule g_rule]. unfold do_activity_rule.
    rewrite (rfold_ext _ (node_step W (with_rule g (then_perturb r p)) mk (then_perturb r p) t inp prev n past nmap)); [reflexivity|]. intros s x. apply node_step_fused; assumption.
  Qed.

  Lemma step_fused (g : args) mk r p t inp c : g_memo g = false -> g_rule g = Some r -> g_pert g = Some p -> no_self_removal g ->
    step W g mk t inp c = step W (with_rule g (then_perturb r p)) mk t inp c.
  Proof.
    intros Hm Hr Hp Hns. unfold step. change (get_past W (with_rule g (then_perturb r p))) with (get_past W g).
    destruct (get_past W g (c_traj c) t) as [past|]; [|reflexivity]. cbn [rbind]. cbn [with_rule g_order].
    change (@evolve_topology _ _ _ _ _ _ _ _ W (with_rule g (then_perturb r p))) with (evolve_topology W g).
    destruct (g_order g).
    - rewrite (activities_fused g mk r p) by assumption. reflexivity.
    - destruct (evolve_topology W g t (c_u c) (c_act c) (c_net c) [] []) as [[u1 n2]|]; [|reflexivity]. cbn [rbind]. rewrite (activities_fused g mk r p) by assumption. reflexivity.
    - destruct (evolve_topology W g t (c_u c) (c_act c) (c_net c) [] []) as [[u1 n2]|]; [|reflexivity]. cbn [rbind]. rewrite (activities_fused g mk r p) by assumption. reflexivity.
  Qed.

  Theorem fused fuel (u0 : U) n initial ts inp (g : args) r p : g_memo g = false -> g_rule g = Some r -> g_pert g = Some p -> no_self_removal g ->
    evolve W fuel u0 n initial ts inp g = evolve W fuel u0 n initial ts inp (with_rule g (then_perturb r p)).
  Proof.
    intros Hm Hr Hp Hns. unfold evolve. cbn [with_rule g_key g_rule g_topo g_comp]. rewrite Hr.
    destruct (get_input_function ts inp) as [infn|]; [|reflexivity]. cbn [rbind].
    match goal with |- context[if ?b then _ else _] => destruct b end; [reflexivity|].
    destruct (set_activities _ _ _) as [sa|]; [|reflexivity]. cbn [rbind]. destruct (set_network _ _ _) as [sn|]; [|reflexivity]. cbn [rbind].
    match goal with |- rbind (loop _ _ ?k _ _ _ ?c) _ = _ => generalize c; generalize 1 as t; generalize k as mk end.
    intros mk t c.
    assert (Hl : loop W g mk infn fuel t c = loop W (with_rule g (then_perturb r p)) mk infn fuel t c).
    { revert t c. induction fuel as [|f IH]; intros t c; cbn [loop]; [reflexivity|].
      destruct (infn (c_u c) t (c_act c) (c_net c)) as [[u [i|]]|]; cbn [rbind]; try reflexivity.
      rewrite (step_fused g mk r p) by assumption. destruct (step W (with_rule g (then_perturb r p)) mk t i (with_u c u)); cbn [rbind]; [apply IH|reflexivity]. }
    rewrite Hl. reflexivity.
  Qed.

  (** without a rule there is nothing to perturb *)
  Theorem unperturbed fuel (u0 : U) n initial ts inp (g : args) p : g_rule g = None ->
    evolve W fuel u0 n initial ts inp (set_pert g p) = evolve W fuel u0 n initial ts inp (set_pert g None).
  Proof.
    intros Hr. unfold evolve. cbn [set_pert g_key g_rule g_topo g_comp].
    destruct (get_input_function ts inp) as [infn|]; [|reflexivity]. cbn [rbind].
    match goal with |- context[if ?b then _ else _] => destruct b end; [reflexivity|].
    destruct (set_activities _ _ _) as [sa|]; [|reflexivity]. cbn [rbind]. destruct (set_network _ _ _) as [sn|]; [|reflexivity]. cbn [rbind].
    match goal with |- rbind (loop _ _ ?k _ _ _ ?c) _ = _ => generalize c; generalize 1 as t; generalize k as mk end.
    intros mk t c.
    assert (Hs : forall t i c, step W (set_pert g p) mk t i c = step W (set_pert g None) mk t i c).
    { intros t' i c'. unfold step, evolve_activities. cbn [set_pert g_rule]. rewrite Hr. reflexivity. }
    assert (Hl : loop W (set_pert g p) mk infn fuel t c = loop W (set_pert g None) mk infn fuel t c).
    { revert t c. induction fuel as [|f IH]; intros t c; cbn [loop]; [reflexivity|].
      destruct (infn (c_u c) t (c_act c) (c_net c)) as [[u [i|]]|]; cbn [rbind]; try reflexivity.
      rewrite Hs. destruct (step W (set_pert g None) mk t i (with_u c u)); cbn [rbind]; [apply IH|reflexivity]. }
    rewrite Hl. reflexivity.
  Qed.

  (** ** runs *)
  Notation tick := (InStr "__timestep__").
  Definition noisy (g : args) (h : ctx -> res A) (p : perturbation) : Prop :=
    g_rule g = Some (stateless h) /\ g_topo g = None /\ g_pert g = Some p /\ g_memo g = false /\ g_comp g = false /\ g_pact g = true /\ g_past g = [].

  (** [Inv] speaks about the states so far, [K k done u] about the user state in timestep k+1 when the nodes [done] are updated, [R k v a b] says that
      the perturbation of timestep k+1 may turn the activity [a] of [v] into [b] *)
  Theorem noisy_run fuel (u0 : U) n c T (g : args) h p (Inv : list acts -> Prop) (K : nat -> list L -> U -> Prop) (R : nat -> L -> A -> A -> Prop) :
    noisy g h p -> NoDup (nodes n) -> 1 <= T -> (Z.to_nat T <= fuel)%nat -> length (to_dict W c) = net_len n -> closed n -> covers n (to_dict W c) ->
    Inv [to_dict W c] -> K 0%nat [] u0 ->
    (forall hist S v x, Inv (hist ++ [S]) -> In v (nodes n) -> ctx_for W n S (Z.of_nat (length hist) + 1) None tick v x -> exists a, h x = Ok a) ->
    (forall k done v rest u a i, nodes n = done ++ v :: rest -> K k done u -> exists u' b, p u (mkPert v a (Z.of_nat k + 1) i) = Ok (u', b) /\ R k v a b /\ K k (done ++ [v]) u') ->
    (forall k u, K k (nodes n) u -> K (Datatypes.S k) [] u) ->
    (forall hist S S', Inv (hist ++ [S]) -> covers n S' -> map fst S' = nodes n ->
       (forall v, In v (nodes n) -> exists x a b, ctx_for W n S (Z.of_nat (length hist) + 1) None tick v x /\ h x = Ok a /\ R (length hist) v a b /\ dget S' v = Some b) -> Inv ((hist ++ [S]) ++ [S'])) ->
    exists uf traj hs, evolve W fuel u0 n (Some c) (Some T) None g = Ok (uf, traj) /\ Z.of_nat (length hs) = T /\
      Forall2 (fun s S => activities W s = Ok (shown_acts S)) traj hs /\ Inv hs /\ nth_error hs 0 = Some (to_dict W c) /\
      (forall k S S', nth_error hs k = Some S -> nth_error hs (Datatypes.S k) = Some S' -> map fst S' = nodes n /\
         forall v, In v (nodes n) -> exists x a b, ctx_for W n S (Z.of_nat k + 1) None tick v x /\ h x = Ok a /\ R k v a b /\ dget S' v = Some b).
  Proof.
    intros (Hr & Ht & Hp & Hm & Hcomp & Hpa & Hpast) Hnd HT Hfuel Hlen Hc Hcov Hinv0 HK0 Htot Hpert HK Hpres.
    set (St := fun (k : nat) S S' => map fst S' = nodes n /\ forall v, In v (nodes n) -> exists x a b, ctx_for W n S (Z.of_nat k + 1) None tick v x /\ h x = Ok a /\ R k v a b /\ dget S' v = Some b).
    rewrite (fused fuel u0 n (Some c) (Some T) None g _ _ Hm Hr Hp).
    2:{ intros r u x u' o Er Eo. rewrite Hr in Er. injection Er as <-. unfold stateless in Eo. destruct (h x); [|discriminate]. injection Eo as _ <-. auto. }
    assert (Hst : static (with_rule g (then_perturb (stateless h) p)) (then_perturb (stateless h) p)) by (unfold static, with_rule; cbn; auto 10).
    destruct (static_run W fuel u0 n c T (with_rule g (then_perturb (stateless h) p)) (then_perturb (stateless h) p)
      (fun hs u => Inv hs /\ K (length hs - 1)%nat [] u /\ Forall (covers n) hs /\ nth_error hs 0 = Some (to_dict W c) /\ forall k S S', nth_error hs k = Some S -> nth_error hs (Datatypes.S k) = Some S' -> St k S S') Hst HT Hfuel Hlen)
      as (uf & traj & hs & E & Hl & Hf & Hi & _ & _ & Hz & Hs).
    - split; [exact Hinv0|]. split; [exact HK0|]. split; [constructor; [exact Hcov|constructor]|]. split; [reflexivity|]. intros [|k] S S' E1 E2; [discriminate|destruct k; discriminate].
    - intros mk tab hist S u (Hi & Hk & Hcs & Hz & Hs) Hlt. cbn [with_rule g_past]. rewrite Hpast. cbn [past_of].
      assert (HcS : covers n S) by (apply Forall_app in Hcs; destruct Hcs as [_ Hx]; inversion Hx; assumption).
      rewrite app_length in Hk. cbn [length] in Hk. replace (length hist + 1 - 1)%nat with (length hist) in Hk by lia.
      destruct (sweep_total W (with_rule g (then_perturb (stateless h) p)) mk (then_perturb (stateless h) p) (Z.of_nat (length hist) + 1) S n None tab u
        (fun done u curr => K (length hist) done u /\ map fst curr = done /\ forall v, In v done -> exists x a b, ctx_for W n S (Z.of_nat (length hist) + 1) None tick v x /\ h x = Ok a /\ R (length hist) v a b /\ dget curr v = Some b)
        Hm eq_refl Hc HcS) as (s & Es & Ea & Er & _ & Hku & Hkeys & Hvals).
      + split; [exact Hk|]. split; [reflexivity|intros v []].
      + intros done v rest u1 curr x En (Hku & Hkk & Hd) Hx. destruct (Htot hist S v x Hi) as [a Eh]; [rewrite En; apply in_or_app; right; left; reflexivity|exact Hx|].
        destruct (Hpert (length hist) done v rest u1 a (x_input x) En Hku) as (u2 & b & Ep & HR & Hku').
        exists u2, b. split; [unfold then_perturb, stateless; rewrite Eh; cbn [rbind o_act o_added o_removed]; rewrite (cf_label _ _ _ _ _ _ _ _ Hx), (cf_time _ _ _ _ _ _ _ _ Hx), Ep; reflexivity|].
        assert (Hnew : ~ In v done) by (rewrite En in Hnd; apply NoDup_remove_2 in Hnd; intros Hin; apply Hnd, in_or_app; left; assumption).
        split; [exact Hku'|]. split.
        * change (map fst (dset curr v b)) with (dkeys (dset curr v b)). rewrite dkeys_dset. assert (Em : dmem curr v = false) by (apply dmem_false; unfold dkeys; rewrite Hkk; assumption). rewrite Em. unfold dkeys. rewrite Hkk. reflexivity.
        * intros w Hw. rewrite dget_dset. destruct (eqd w v) as [->|Hne]; [exists x, a, b; auto|]. apply in_app_or in Hw. destruct Hw as [Hw|[Hw|[]]]; [auto|congruence].
      + exists s. split; [exact Es|]. split; [exact Ea|]. split; [exact Er|].
        assert (Hcov' : covers n (s_curr s)) by (intros v Hv; destruct (Hvals v Hv) as (x & a & b & _ & _ & _ & Ed); eauto).
        split; [apply (Hpres hist S (s_curr s) Hi Hcov' Hkeys Hvals)|].
        split; [rewrite !app_length; cbn [length]; replace (length hist + 1 + 1 - 1)%nat with (Datatypes.S (length hist)) by lia; apply HK, Hku|].
        split; [apply Forall_app; split; [assumption|constructor; [assumption|constructor]]|].
        split; [rewrite nth_error_app1 by (rewrite app_length; cbn [length]; lia); assumption|].
        intros k S1 S2 E1 E2. assert (Hlk : (Datatypes.S k < length ((hist ++ [S]) ++ [s_curr s]))%nat) by (apply nth_error_Some; congruence).
        rewrite !app_length in Hlk. cbn [length] in Hlk. rewrite nth_error_app1 in E1 by (rewrite app_length; cbn [length]; lia).
        destruct (Nat.eq_dec k (length hist)) as [->|Hne].
        * rewrite nth_error_app2 in E1 by lia. rewrite Nat.sub_diag in E1. injection E1 as <-.
          rewrite nth_error_app2 in E2 by (rewrite app_length; cbn [length]; lia). rewrite app_length in E2. cbn [length] in E2.
          replace (Datatypes.S (length hist) - (length hist + 1))%nat with 0%nat in E2 by lia. injection E2 as <-. split; assumption.
        * rewrite nth_error_app1 in E2 by (rewrite app_length; cbn [length]; lia). apply (Hs k S1 S2 E1 E2).
    - exists uf, traj, hs. auto 10.
  Qed.
  (** a local rule, disturbed by functions of the timestep and the node: [K] as in [noisy_run] *)
  Theorem pert_ca_run fuel (u0 : U) n nb c T (g : args) h f p q (P : A -> Prop) (K : nat -> list L -> U -> Prop) (s : L -> A) :
    noisy g h p -> NoDup (nodes n) -> 1 <= T -> (Z.to_nat T <= fuel)%nat -> length (to_dict W c) = net_len n -> closed n ->
    (forall v, In v (nodes n) -> nbrs_of n v (nb v)) -> shows_cells (fun v => In v (nodes n)) (to_dict W c) s -> (forall v, In v (nodes n) -> P (s v)) ->
    computes nb (fun v => In v (nodes n)) P h f -> (forall k v a, In v (nodes n) -> P a -> P (q k v a)) -> K 0%nat [] u0 ->
    (forall k done v rest u a i, nodes n = done ++ v :: rest -> K k done u -> exists u', p u (mkPert v a (Z.of_nat k + 1) i) = Ok (u', q k v a) /\ K k (done ++ [v]) u') ->
    (forall k u, K k (nodes n) u -> K (Datatypes.S k) [] u) ->
    exists hs, runs W fuel u0 n c T g hs /\ nth_error hs 0 = Some (to_dict W c) /\ (forall k S, nth_error hs (Datatypes.S k) = Some S -> map fst S = nodes n) /\
      (forall k v, In v (nodes n) -> P (ca_next nb f (pert_state nb f q s k) v)) /\
      forall k S, nth_error hs k = Some S -> shows_cells (fun v => In v (nodes n)) S (pert_state nb f q s k).
  Proof.
    intros Hno Hnd HT Hfuel Hlen Hcl Hnb Hs HP Hh Hq HK0 Hpert HK. set (D := fun v => In v (nodes n)) in *. set (st := pert_state nb f q s).
    assert (HDnb : forall v w, D v -> In w (nb v) -> D w).
    { intros v w Hv Hw. destruct (Hcl v Hv) as (conn & l & _ & Hl & Hi). rewrite (nbrs_fun n v _ _ (Hnb v Hv) Hl) in Hw. apply Hi. assumption. }
    assert (Hrule : forall k, (forall v, D v -> P (st k v)) -> forall v (x : ctx), D v -> x_label x = v -> x_cur x = st k v -> x_nacts x = map (st k) (nb v) ->
              h x = Ok (ca_next nb f (st k) v) /\ P (ca_next nb f (st k) v)).
    { intros k Hk v x Hv E1 E2 E3. unfold ca_next. rewrite <- E2, <- E3, <- E1. apply Hh.
      - rewrite E1. exact Hv.
      - rewrite E2. apply Hk, Hv.
      - rewrite E3. apply Forall_forall. intros a Ha. apply in_map_iff in Ha. destruct Ha as (w & <- & Hw). apply Hk. eapply HDnb; eassumption.
      - rewrite E3, E1. apply map_length. }
    assert (HPst : forall k v, D v -> P (st k v)).
    { induction k as [|k IH]; intros v Hv; [apply HP, Hv|]. cbn [st pert_state]. apply Hq; [exact Hv|].
      apply (proj2 (Hrule k IH v (mkCtx v 0 [] [] (map (st k) (nb v)) [] (st k v) None None) Hv eq_refl eq_refl eq_refl)). }
    assert (Hctx : forall k S t v (x : ctx), shows_cells D S (st k) -> D v -> ctx_for W n S t None tick v x -> h x = Ok (ca_next nb f (st k) v)).
    { intros k S t v x HS Hv Hx. destruct Hx as [Elab _ _ Hn Hacts _ Hcur _ _]. rewrite (nbrs_fun n v _ _ Hn (Hnb v Hv)) in Hacts.
      apply (Hrule k (HPst k) v x Hv); [assumption|rewrite (HS v Hv) in Hcur; congruence|]. eapply nacts_map; [exact Hacts|exact HS|]. intros w Hw. eapply HDnb; eassumption. }
    set (Inv := fun hs : list acts => forall k S, nth_error hs k = Some S -> shows_cells D S (st k)).
    destruct (noisy_run fuel u0 n c T g h p Inv K (fun k v a b => b = q k v a) Hno Hnd HT Hfuel Hlen Hcl) as (uf & traj & hs & Ev & Hl & Hshow & Hi & Hz & Hsteps).
    - intros v Hv. exists (s v). apply Hs, Hv.
    - intros [|k] S E; [injection E as <-; exact Hs|destruct k; discriminate].
    - exact HK0.
    - intros hist S v x Hi Hv Hx. eexists. eapply Hctx; [|exact Hv|exact Hx]. apply (Hi (length hist)). rewrite nth_error_app2, Nat.sub_diag by lia. reflexivity.
    - intros k done v rest u a i En Hku. destruct (Hpert k done v rest u a i En Hku) as (u' & Ep & Hku'). eauto 6.
    - exact HK.
    - intros hist S S' Hi Hcov _ Hu k S1 E. destruct (lt_dec k (length (hist ++ [S]))) as [Hlt|Hge].
      + rewrite nth_error_app1 in E by assumption. apply Hi. assumption.
      + rewrite nth_error_app2 in E by lia. destruct (k - length (hist ++ [S]))%nat as [|m] eqn:Ek; [|destruct m; discriminate]. injection E as <-.
        rewrite app_length in Ek, Hge. cbn [length] in Ek, Hge. assert (k = Datatypes.S (length hist)) by lia. subst k.
        intros v Hv. destruct (Hu v Hv) as (x & a & b & Hx & Ea & -> & Ed). rewrite Ed. cbn [st pert_state]. do 2 f_equal.
        assert (HS : shows_cells D S (st (length hist))) by (apply (Hi (length hist)); rewrite nth_error_app2, Nat.sub_diag by lia; reflexivity).
        rewrite (Hctx (length hist) S _ v x HS Hv Hx) in Ea. congruence.
    - exists hs. split; [exists uf, traj; auto|]. split; [exact Hz|]. split.
      { intros k S Ek. destruct (nth_error hs k) as [S0|] eqn:E0; [|apply nth_error_None in E0; assert (Datatypes.S k < length hs)%nat by (apply nth_error_Some; congruence); lia].
        apply (Hsteps k S0 S E0 Ek). }
      split; [|exact Hi]. intros k v Hv. apply (proj2 (Hrule k (HPst k) v (mkCtx v 0 [] [] (map (st k) (nb v)) [] (st k v) None None) Hv eq_refl eq_refl eq_refl)).
  Qed.
End Fuse.

(** ** what a disturbance can reach *)
Lemma pert_ext {L A} (nb : L -> list L) f (q q' : nat -> L -> A -> A) (s : L -> A) k v :
  (forall i w a, (i < k)%nat -> within nb (k - 1 - i) v w -> q i w a = q' i w a) -> pert_state nb f q s k v = pert_state nb f q' s k v.
Proof.
  revert v. induction k as [|k IH]; intros v Hq; [reflexivity|]. cbn [pert_state].
  assert (E : ca_next nb f (pert_state nb f q s k) v = ca_next nb f (pert_state nb f q' s k) v).
  { unfold ca_next. f_equal.
    - apply IH. intros i w a Hi Hw. apply Hq; [lia|]. eapply within_mono; [exact Hw|lia].
    - apply map_ext_in. intros u Hu. apply IH. intros i w a Hi Hw. apply Hq; [lia|]. replace (Datatypes.S k - 1 - i)%nat with (Datatypes.S (k - 1 - i)) by lia. econstructor; eassumption. }
  rewrite E. apply Hq; [lia|constructor].
Qed.
Lemma pert_none {L A} (nb : L -> list L) f (s : L -> A) k v : pert_state nb f (fun _ _ a => a) s k v = ca_state nb f k s v.
Proof.
  revert v. induction k as [|k IH]; intros v; [reflexivity|]. cbn [pert_state]. rewrite ca_state_S. unfold ca_next. rewrite IH. f_equal. apply map_ext. intros w. apply IH.
Qed.
