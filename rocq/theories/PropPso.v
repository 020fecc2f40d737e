(** * C105: the particle swarm demos *)
From Verif Require Import Py PyFacts ListFacts Network NetworkSpec NetworkProofs Topology TopologySpec TopologyProofs3 TopologyProofs5 Lattice LatticeProofs WattsStrogatzSpec WattsStrogatz WattsStrogatzProofs PropSmallWorld Evolve EvolveSpec EvolveProofs EvolveStatic EvolveProofs2 DrivenRun Pso PsoSpec PsoProofs.
Open Scope string_scope.
Open Scope list_scope.
Open Scope Z_scope.

Lemma snoc_inj {X} (l l' : list X) a b : l ++ [a] = l' ++ [b] -> l = l' /\ a = b.
Proof. apply app_inj_tail. Qed.
Lemma NoDup_prefix {X} (l l' : list X) : NoDup (l ++ l') -> NoDup l.
Proof. induction l as [|x l IH]; intros Hn; [constructor|]. inversion Hn as [|? ? Hx Hn']; subst. constructor; [intros Hi; apply Hx, in_or_app; left; exact Hi|apply IH, Hn']. Qed.

Section Global.
  Context {X F L V BA BN : Type} `{EqD X} `{EqD L}.
  Context (f : X -> F) (lt : F -> F -> bool) (add sub mul : X -> X -> X) (dot3 : X -> X -> X -> X) (rand place push : nat -> X).
  Notation particle := (X * X * X)%type.
  Context (W : env L V particle BA BN).
  Notation vel := (fun m x p v g => dot3 v (mul (rand m) (sub p x)) (mul (rand (S m)) (sub g x))).

  Lemma row_covers (n : network L V) (s : nat -> particle) : NoDup (nodes n) -> covers n (row (nodes n) s).
  Proof. intros Hnd v Hv. apply dget_key_some. rewrite dkeys_row. exact Hv. Qed.

  (** ** pso_demo.py: on any network the demo is the search with one leader. It takes [T] states, prints the leader [T] times, and
      the leader printed is the best position any particle was in so far (swarm_search). *)
  Theorem C105_one_leader : forall fuel T (n : network L V), weak_order lt -> NoDup (nodes n) -> nodes n <> [] -> closed n -> 1 <= T -> (Z.to_nat T <= fuel)%nat ->
    let '(ic, g) := init_swarm f lt place push n in
    exists uf traj pos best speed lead,
      evolve W fuel (mkSwarm g 0 []) n (Some (CDict ic)) None (Some (InputFun (pso_input T))) (pso_args f lt add sub mul dot3 rand) = Ok (uf, traj) /\
      Z.of_nat (length traj) = T /\
      swarm_search f lt add vel (length (nodes n)) pos best speed lead /\
      (forall j, pos 0%nat j = place j /\ speed 0%nat j = push j) /\
      sw_log uf = map (fun k => (Z.of_nat k + 1, lead k 0%nat)) (seq 0 (Z.to_nat T)) /\
      forall k s, nth_error traj k = Some s -> exists S, activities W s = Ok (Some S) /\ map fst S = nodes n /\
        forall j v, nth_error (nodes n) j = Some v -> dget S v = Some (pos k j, best k j, speed k j).
  Proof.
    intros fuel T n Hlt Hnd Hne Hcl HT Hfuel. rewrite init_swarm_eq by assumption. set (N := length (nodes n)) in *.
    assert (HN : (0 < N)%nat) by (unfold N; destruct (nodes n); [congruence|cbn; lia]).
    destruct (consider_best f lt Hlt (map place (seq 0 N))) as (g0 & -> & Hg0); [destruct N; [lia|discriminate]|].
    set (st := search f lt add vel N (start place push) g0). set (posn := pos f lt add vel N place push g0). set (bst := best f lt add vel N place push g0). set (spd := speed f lt add vel N place push g0). set (ld := lead f lt add vel N place push g0).
    set (hist_at := fun k : nat => (row (nodes n) (fst (st k)), n)).
    set (logs := fun k : nat => map (fun k => (Z.of_nat k + 1, ld k 0%nat)) (seq 0 k)).
    set (Inv := fun (hist : list (dict L particle * network L V)) (u : swarm) => hist = map hist_at (seq 0 (length hist)) /\
       u = mkSwarm (Some (ld (length hist - 1)%nat 0%nat)) (2 * ((length hist - 1) * N)) (logs (length hist - 1)%nat)).
    set (Fin := fun (hist : list (dict L particle * network L V)) (u : swarm) => hist = map hist_at (seq 0 (length hist)) /\ sw_log u = logs (length hist)).
    assert (Hsplit : forall hist (S : dict L particle) m, hist ++ [(S, m)] = map hist_at (seq 0 (length (hist ++ [(S, m)]))) -> S = row (nodes n) (fst (st (length hist))) /\ m = n /\ hist = map hist_at (seq 0 (length hist))).
    { intros hist S m E. rewrite app_length in E. cbn [length] in E. rewrite Nat.add_1_r, seq_S, map_app in E. cbn [Nat.add map] in E. apply snoc_inj in E. destruct E as [E1 E2]. unfold hist_at at 1 in E2. split; [congruence|]. split; [congruence|exact E1]. }
    assert (Elen : forall hist (S : dict L particle) (m : network L V), (length (hist ++ [(S, m)]) - 1)%nat = length hist) by (intros; rewrite app_length; cbn [length]; lia).
    assert (Elog : forall k, logs (S k) = logs k ++ [(Z.of_nat k + 1, ld k 0%nat)]) by (intros k; unfold logs; rewrite seq_S, map_app; reflexivity).
    destruct (driven_run W fuel (mkSwarm (Some g0) 0 []) n (CDict (row (nodes n) (start place push))) T None (Some (InputFun (pso_input T))) (pso_input T) (pso_args f lt add sub mul dot3 rand) (pso_rule f lt add sub mul dot3 rand) Inv Fin)
      as (uf & traj & hs & E & Hl & Hf & HF).
    - repeat split.
    - reflexivity.
    - exact HT.
    - exact Hfuel.
    - cbn [to_dict]. rewrite length_row. unfold nodes, net_len, dkeys. rewrite map_length. reflexivity.
    - split; reflexivity.
    - intros hist S m u [Eh Eu] Ht. rewrite Elen in Eu. destruct (Hsplit _ _ _ Eh) as (-> & -> & Eh'). subst u. eexists. split.
      + unfold pso_input. cbn [sw_g]. rewrite Z.eqb_refl. reflexivity.
      + split; [exact Eh|]. cbn [sw_log]. rewrite app_length. cbn [length]. rewrite Nat.add_1_r, Elog, Ht. reflexivity.
    - intros hist S m u [Eh Eu] t Ht. rewrite Elen in Eu. destruct (Hsplit _ _ _ Eh) as (-> & -> & Eh'). subst u. set (k := length hist) in *.
      eexists _, _. split.
      { unfold pso_input. cbn [sw_g sw_draws sw_log]. destruct (Z.eqb_spec t T); [lia|]. reflexivity. }
      intros mk tab. set (ic := row (nodes n) (fst (st k))) in *.
      destruct (sweep_in (U:=swarm) W (pso_args f lt add sub mul dot3 rand) mk (pso_rule f lt add sub mul dot3 rand) t (InVal ic) ic n None tab (mkSwarm (Some (ld k 0%nat)) (2 * (k * N)) (logs k ++ [(t, ld k 0%nat)]))
        (fun done u curr => u = mkSwarm (Some (ld k (length done))) (2 * (k * N + length done)) (logs (S k)) /\ curr = row done (fst (st (S k))))) as (s & Es & Ea & Er & _ & Eu & Ec).
      + reflexivity.
      + reflexivity.
      + exact Hcl.
      + apply row_covers, Hnd.
      + intros v _. eexists. reflexivity.
      + split; [|reflexivity]. rewrite Elog, Nat.add_0_r. reflexivity.
      + intros done v rest u curr x En [-> ->] Hx. assert (Hj : nth_error (nodes n) (length done) = Some v) by (rewrite En, nth_error_app2, Nat.sub_diag by lia; reflexivity).
        pose proof (cf_cur _ _ _ _ _ _ _ _ Hx) as Ecur. unfold ic in Ecur. rewrite (dget_row _ _ _ _ Hnd Hj) in Ecur. injection Ecur as Ecur.
        assert (Est : fst (st k) (length done) = (posn k (length done), bst k (length done), spd k (length done))) by apply search_at.
        assert (EstS : fst (st (S k)) (length done) = moved f lt add vel (2 * (k * N + length done)) (ld k (length done)) (posn k (length done), bst k (length done), spd k (length done))) by apply search_S.
        unfold pso_rule. rewrite <- Ecur, Est. cbn [sw_g sw_draws sw_log]. eexists _, _. split; [reflexivity|]. split.
        * rewrite app_length. cbn [length]. rewrite Nat.add_1_r.
          assert (El : ld k (S (length done)) = led f lt (ld k (length done)) (posn k (length done), bst k (length done), spd k (length done)) (fst (st (S k)) (length done))).
          { rewrite EstS, <- Est. unfold ld at 1, lead. cbn [lead_in]. replace (2 * (k * N) + 2 * length done)%nat with (2 * (k * N + length done))%nat by lia. reflexivity. }
          rewrite El, EstS. unfold led, moved, velocity. f_equal. lia.
        * rewrite <- (dset_row done v (fst (st (S k)))) by (apply (NoDup_prefix _ rest); rewrite <- app_assoc; cbn [app]; rewrite <- En; exact Hnd). rewrite EstS. reflexivity.
      + exists s, (s_u s), n. split; [exact Es|]. split; [exact Ea|]. split; [exact Er|]. split; [reflexivity|].
        assert (Elen2 : length ((hist ++ [(ic, n)]) ++ [(s_curr s, n)]) = S (S k)) by (rewrite !app_length; cbn [length]; lia).
        split.
        * rewrite Elen2, seq_S, map_app. cbn [map Nat.add]. f_equal; [|unfold hist_at; rewrite Ec; reflexivity]. rewrite Eh. rewrite app_length. cbn [length]. rewrite Nat.add_1_r. reflexivity.
        * rewrite Elen2, Eu. fold N. replace (S (S k) - 1)%nat with (S k) by lia. unfold ld at 2. rewrite lead_next. fold ld. f_equal. lia.
    - destruct HF as [EF EL]. exists uf, traj, posn, bst, spd, ld. split; [exact E|]. split; [rewrite (Forall2_len _ _ _ Hf); exact Hl|].
      split; [apply search_correct; assumption|]. split; [intros j; split; reflexivity|]. split; [rewrite EL; unfold logs; f_equal; f_equal; lia|].
      intros k s Ek. destruct (nth_error hs k) as [[S m]|] eqn:Eh.
      2: { apply nth_error_None in Eh. assert (nth_error traj k <> None) as Hs by congruence. apply nth_error_Some in Hs. rewrite (Forall2_len _ _ _ Hf) in Hs. lia. }
      destruct (Forall2_at _ _ _ _ _ _ Hf Ek Eh) as [Ea _]. cbn [fst] in Ea. assert (Hk : (k < length hs)%nat) by (apply nth_error_Some; congruence).
      rewrite EF in Eh. rewrite nth_error_map in Eh. rewrite nth_error_nth' with (d := 0%nat) in Eh by (rewrite seq_length; exact Hk). rewrite seq_nth in Eh by exact Hk. cbn [option_map Nat.add] in Eh. injection Eh as <- <-.
      exists (row (nodes n) (fst (st k))). split; [|split; [apply dkeys_row|]].
      + rewrite Ea. assert (El := length_row (nodes n) (fst (st k))). fold N in El. destruct (row (nodes n) (fst (st k))); [cbn in El; lia|reflexivity].
      + intros j v Hj. rewrite (dget_row _ _ _ _ Hnd Hj). f_equal. apply search_at.
  Qed.
End Global.
Print Assumptions C105_one_leader.

Section Local.
  Context {X F L V BA BN : Type} `{EqD X} `{EqD L}.
  Context (f : X -> F) (lt : F -> F -> bool) (add sub mul : X -> X -> X) (dot3 : X -> X -> X -> X) (rand place push : nat -> X).
  Notation particle := (X * X * X)%type.
  Notation acts := (dict L particle).
  Notation network := (network L V).
  Context (W : env L V particle BA BN).
  Notation vel := (fun m x p v g => dot3 v (mul (rand m) (sub p x)) (mul (rand (S m)) (sub g x))).

  (** a network on the nodes of [vs] in which every node has a neighbour *)
  Record swarm_net (vs : list L) (m : network) : Prop := {
    sn_nodup : NoDup (nodes m);
    sn_nodes : forall v, In v (nodes m) <-> In v vs;
    sn_closed : closed m;
    sn_nbrs : forall v, In v (nodes m) -> exists l, nbrs_of m v l /\ l <> [] }.

  Lemma nbrs_fun (m : network) v l l' : nbrs_of m v l -> nbrs_of m v l' -> l = l'.
  Proof. unfold nbrs_of. destruct (net_rot m); [congruence|]. intros (i & E & ->) (i' & E' & ->). congruence. Qed.
  Definition neighbours (m : network) (v : L) : list L :=
    match net_rot m with
    | Some r => match dget r v with Some l => l | None => [] end
    | None => match in_edges m v with Ok inc => map fst inc | Err _ => [] end
    end.
  Lemma neighbours_of (m : network) v l : nbrs_of m v l -> neighbours m v = l.
  Proof. unfold nbrs_of, neighbours. destruct (net_rot m); [intros ->; reflexivity|]. intros (i & -> & ->). reflexivity. Qed.

  Notation mid q := (snd (fst (q : particle))).
  Definition values (S : acts) : list X := map (fun e => mid (snd e)) S.

  Section Run.
    Context (Hlt : weak_order lt) (n0 : network) (topo : option (network -> acts -> Z -> res network)) (T : Z).
    Notation vs := (nodes n0).
    Context (Hn0 : swarm_net vs n0) (Hne : vs <> []) (HT : 1 <= T).
    Context (Htopo : forall F, topo = Some F -> forall m S t, 1 <= t < T -> exists m', F m S t = Ok m' /\ swarm_net vs m').
    Notation N := (length vs).
    Notation ic := (row vs (start place push)).

    Lemma nodes_count m : swarm_net vs m -> length (nodes m) = N.
    Proof.
      intros Hm. apply Nat.le_antisymm; apply NoDup_incl_length; try apply (sn_nodup _ _ Hm); try apply (sn_nodup _ _ Hn0); intros v Hv; apply (sn_nodes _ _ Hm); assumption.
    Qed.

    (** what one step does *)
    Definition link (k : nat) (S : acts) (m : network) (S' : acts) (m' : network) : Prop := match topo with None => m' = m | Some R => R (copy m) S' (Z.of_nat k + 1) = Ok m' end /\ dkeys S' = nodes m /\
      forall j v, nth_error (nodes m) j = Some v -> exists q g bs, dget S v = Some q /\ Forall2 (fun w b => exists q, dget S w = Some q /\ mid q = b) (neighbours m v) bs /\
        first_best f lt bs g /\ dget S' v = Some (moved f lt add vel (2 * (k * N + j)) g q).
    Definition chain (hist : list (acts * network)) : Prop :=
      nth_error hist 0 = Some (ic, n0) /\
      (forall k S m, nth_error hist k = Some (S, m) -> swarm_net vs m /\ NoDup (dkeys S) /\ forall v, In v (dkeys S) <-> In v vs) /\
      (forall k S m S' m', nth_error hist k = Some (S, m) -> nth_error hist (Datatypes.S k) = Some (S', m') -> link k S m S' m').
    Definition logged (hist : list (acts * network)) (c : nat) (log : list (Z * F)) : Prop := length log = c /\
      forall k S m, (k < c)%nat -> nth_error hist k = Some (S, m) -> exists b, first_best f lt (values S) b /\ nth_error log k = Some (Z.of_nat k + 1, f b).
    Definition LInv (hist : list (acts * network)) (u : flock) : Prop := chain hist /\
      fl_draws u = (2 * ((length hist - 1) * N))%nat /\ logged hist (length hist - 1) (fl_log u).
    Definition LFin (hist : list (acts * network)) (u : flock) : Prop := chain hist /\ logged hist (length hist) (fl_log u).

    Lemma chain_last hist S m : chain (hist ++ [(S, m)]) -> swarm_net vs m /\ NoDup (dkeys S) /\ forall v, In v (dkeys S) <-> In v vs.
    Proof. intros (_ & Hall & _). apply (Hall (length hist)). rewrite nth_error_app2, Nat.sub_diag by lia. reflexivity. Qed.

    Lemma input_step hist S m u t : LInv (hist ++ [(S, m)]) u -> t = Z.of_nat (length hist) + 1 ->
      exists b, local_input f lt T u t S m = Ok (mkFlock (fl_draws u) (fl_log u ++ [(t, f b)]), if t =? T then None else Some (InVal S)) /\ logged (hist ++ [(S, m)]) (Datatypes.S (length hist)) (fl_log u ++ [(t, f b)]).
    Proof.
      intros (Hc & _ & Hl & Hlog) Et. destruct (chain_last _ _ _ Hc) as (_ & _ & Hk). assert (Hv : values S <> []).
      { destruct vs as [|v l] eqn:E; [congruence|]. destruct S; [|discriminate]. exfalso. apply (proj2 (Hk v)). left. reflexivity. }
      destruct (consider_best f lt Hlt (values S) Hv) as (b & Eb & Hb). exists b. unfold local_input. fold (values S). rewrite Eb. split; [reflexivity|].
      rewrite app_length in Hl, Hlog. cbn [length] in Hl, Hlog. replace (length hist + 1 - 1)%nat with (length hist) in * by lia. split; [rewrite app_length, Hl; cbn [length]; lia|].
      intros k S1 m1 Hk1 E1. destruct (Nat.eq_dec k (length hist)) as [->|Hd].
      - rewrite nth_error_app2, Nat.sub_diag in E1 by lia. injection E1 as <- <-. exists b. split; [exact Hb|]. rewrite nth_error_app2, Hl, Nat.sub_diag by lia. rewrite Et. reflexivity.
      - destruct (Hlog k S1 m1 ltac:(lia) E1) as (b1 & Hb1 & Eb1). exists b1. split; [exact Hb1|]. rewrite nth_error_app1 by lia. exact Eb1.
    Qed.

    Lemma nacts_mid S ls (xs : list particle) : Forall2 (fun w a => dget S w = Some a) ls xs -> Forall2 (fun w b => exists q, dget S w = Some q /\ mid q = b) ls (map (fun q => mid q) xs).
    Proof. induction 1; constructor; eauto. Qed.

    Lemma local_run fuel : (Z.to_nat T <= fuel)%nat ->
      exists uf traj hs, evolve W fuel (mkFlock 0 []) n0 (Some (CDict ic)) None (Some (InputFun (local_input f lt T))) (local_args f lt add sub mul dot3 rand topo) = Ok (uf, traj) /\
        Z.of_nat (length hs) = T /\ Forall2 (fun s Sm => activities W s = Ok (shown_acts (fst Sm)) /\ state_network W s = Ok (shown_net (snd Sm))) traj hs /\ LFin hs uf.
    Proof.
      intros Hfuel. eapply (driven_run W fuel (mkFlock 0 []) n0 (CDict ic) T None (Some (InputFun (local_input f lt T))) (local_input f lt T) _ (local_rule f lt add sub mul dot3 rand) LInv LFin).
      - repeat split.
      - reflexivity.
      - exact HT.
      - exact Hfuel.
      - cbn [to_dict]. rewrite length_row. unfold nodes, net_len, dkeys. rewrite map_length. reflexivity.
      - split; [|split; [reflexivity|split; [reflexivity|intros; cbn [length] in *; lia]]]. split; [reflexivity|]. split.
        + intros [|k] S m E; [|destruct k; discriminate]. injection E as <- <-. split; [exact Hn0|]. cbn [to_dict]. rewrite dkeys_row. split; [apply (sn_nodup _ _ Hn0)|tauto].
        + intros k S m S' m' _ E. destruct k; discriminate.
      - intros hist S m u Hi Ht. destruct (input_step hist S m u T Hi ltac:(lia)) as (b & Eb & Hb). rewrite Z.eqb_refl in Eb. eexists. split; [exact Eb|]. split; [exact (proj1 Hi)|]. cbn [fl_log]. rewrite app_length. cbn [length]. rewrite Nat.add_1_r. exact Hb.
      - intros hist S m u Hi t Ht. destruct (input_step hist S m u t Hi eq_refl) as (b & Eb & Hb). destruct (Z.eqb_spec t T); [lia|]. eexists _, _. split; [exact Eb|]. intros mk tab.
        destruct Hi as (Hc & Hd & _). destruct (chain_last _ _ _ Hc) as (Hm & HndS & HkS). rewrite app_length in Hd. cbn [length] in Hd. replace (length hist + 1 - 1)%nat with (length hist) in Hd by lia. set (k := length hist) in *.
        assert (Hcov : covers m S) by (intros v Hv; apply dget_key_some, HkS, (sn_nodes _ _ Hm), Hv).
        set (log' := fl_log u ++ [(t, f b)]) in *.
        destruct (sweep_in (U:=flock) W (local_args f lt add sub mul dot3 rand topo) mk (local_rule f lt add sub mul dot3 rand) t (InVal S) S m None tab (mkFlock (fl_draws u) log')
          (fun done u curr => u = mkFlock (2 * (k * N + length done)) log' /\ dkeys curr = done /\
             forall j v, nth_error done j = Some v -> exists q g bs, dget S v = Some q /\ Forall2 (fun w b => exists q, dget S w = Some q /\ mid q = b) (neighbours m v) bs /\ first_best f lt bs g /\ dget curr v = Some (moved f lt add vel (2 * (k * N + j)) g q)))
          as (s & Es & Ea & Er & _ & Eu & Ek & Hstep).
        + reflexivity.
        + reflexivity.
        + apply (sn_closed _ _ Hm).
        + exact Hcov.
        + intros v _. eexists. reflexivity.
        + split; [rewrite Hd; cbn [length]; rewrite Nat.add_0_r; reflexivity|]. split; [reflexivity|]. intros j v E. destruct j; discriminate.
        + intros done v rest u' curr x En (-> & Ekc & Hdone) Hx.
          assert (Hv : In v (nodes m)) by (rewrite En; apply in_or_app; right; left; reflexivity).
          assert (Hfresh : ~ In v done) by (pose proof (sn_nodup _ _ Hm) as Hn; rewrite En in Hn; apply NoDup_remove_2 in Hn; intros Hx'; apply Hn, in_or_app; left; exact Hx').
          destruct (sn_nbrs _ _ Hm v Hv) as (ls & Hls & Hlne). pose proof (nbrs_fun _ _ _ _ Hls (cf_nbrs _ _ _ _ _ _ _ _ Hx)) as Els.
          pose proof (nacts_mid _ _ _ (cf_nacts _ _ _ _ _ _ _ _ Hx)) as Hbs. rewrite <- Els in Hbs.
          set (bs := map (fun q => mid q) (x_nacts x)) in *.
          destruct (consider_best f lt Hlt bs) as (g & Eg & Hg); [intros E0; rewrite E0 in Hbs; inversion Hbs; subst; congruence|].
          pose proof (cf_cur _ _ _ _ _ _ _ _ Hx) as Ecur. destruct (x_cur x) as [[xx pp] vv] eqn:Exc.
          unfold local_rule. rewrite Exc. fold bs. rewrite Eg. cbn [fl_draws fl_log]. eexists _, _. split; [reflexivity|]. split; [|split].
          * f_equal. rewrite app_length. cbn [length]. lia.
          * rewrite dkeys_dset, Ekc. destruct (dmem curr v) eqn:Em; [|reflexivity]. apply dmem_true in Em. rewrite Ekc in Em. contradiction.
          * intros j w Ej. destruct (Nat.lt_ge_cases j (length done)) as [Hlt'|Hge].
            -- rewrite nth_error_app1 in Ej by assumption. destruct (Hdone j w Ej) as (q & g' & bs' & E1 & E2 & E3 & E4). exists q, g', bs'. split; [exact E1|]. split; [exact E2|]. split; [exact E3|].
               rewrite dget_dset_ne; [exact E4|]. intros ->. apply Hfresh. exact (nth_error_In _ _ Ej).
            -- rewrite nth_error_app2 in Ej by assumption. destruct (j - length done)%nat as [|i] eqn:Ei; [|destruct i; discriminate]. injection Ej as <-. assert (j = length done) as -> by lia.
               exists (xx, pp, vv), g, bs. split; [exact Ecur|]. split; [rewrite (neighbours_of _ _ _ Hls); exact Hbs|]. split; [exact Hg|]. rewrite dget_dset_eq. reflexivity.
        + assert (Et : exists m', evolve_topology W (local_args f lt add sub mul dot3 rand topo) t (s_u s) (s_curr s) m [] [] = Ok (s_u s, m') /\ swarm_net vs m' /\ match topo with None => m' = m | Some R => R (copy m) (s_curr s) t = Ok m' end).
          { unfold evolve_topology. cbn [rbind g_topo local_args]. destruct topo as [Ft|] eqn:Etp; cbn [option_map]; [|exists m; split; [reflexivity|split; [exact Hm|reflexivity]]].
            unfold pure_topo. cbn [t_net t_acts t_time]. destruct (Htopo Ft eq_refl (if g_copy (local_args f lt add sub mul dot3 rand (Some Ft)) then copy m else m) (s_curr s) t ltac:(lia)) as (m' & Em' & Hm'). exists m'. split; [|split; [exact Hm'|exact Em']]. rewrite Em'. cbn [rbind].
            assert (nodes m' <> []) as Hnz by (intros E0; destruct vs as [|v l]; [congruence|]; pose proof (proj2 (sn_nodes _ _ Hm' v) (or_introl eq_refl)) as Hx; rewrite E0 in Hx; destruct Hx). unfold nodes, dkeys in Hnz. destruct (net_nodes m'); [cbn in Hnz; congruence|reflexivity]. }
          destruct Et as (m' & Et & Hm' & Etm). exists s, (s_u s), m'. split; [exact Es|]. split; [exact Ea|]. split; [exact Er|]. split; [exact Et|].
          assert (Elen2 : length ((hist ++ [(S, m)]) ++ [(s_curr s, m')]) = Datatypes.S (Datatypes.S k)) by (rewrite !app_length; cbn [length]; lia).
          assert (Elen1 : length (hist ++ [(S, m)]) = Datatypes.S k) by (rewrite app_length; cbn [length]; lia).
          split; [|split].
          * destruct Hc as (H0c & Hall & Hlk). split; [rewrite nth_error_app1 by lia; exact H0c|]. split.
            -- intros i S1 m1 E1. destruct (Nat.lt_ge_cases i (length (hist ++ [(S, m)]))) as [Hi|Hi].
               ++ rewrite nth_error_app1 in E1 by assumption. exact (Hall i S1 m1 E1).
               ++ rewrite nth_error_app2 in E1 by assumption. destruct (i - length (hist ++ [(S, m)]))%nat as [|w]; [|destruct w; discriminate]. injection E1 as <- <-. split; [exact Hm'|]. rewrite Ek. split; [apply (sn_nodup _ _ Hm)|apply (sn_nodes _ _ Hm)].
            -- intros i S1 m1 S2 m2 E1 E2. destruct (Nat.lt_ge_cases (Datatypes.S i) (length (hist ++ [(S, m)]))) as [Hi|Hi].
               ++ rewrite nth_error_app1 in E1, E2 by lia. exact (Hlk i S1 m1 S2 m2 E1 E2).
               ++ rewrite nth_error_app2 in E2 by assumption. destruct (Datatypes.S i - length (hist ++ [(S, m)]))%nat as [|w] eqn:Ew; [|destruct w; discriminate]. injection E2 as <- <-.
                  assert (i = k) as -> by lia. rewrite nth_error_app1 in E1 by lia. rewrite nth_error_app2 in E1 by (unfold k; lia). unfold k in E1. rewrite Nat.sub_diag in E1. injection E1 as <- <-. split; [exact Etm|]. split; [exact Ek|exact Hstep].
          * rewrite Eu, Elen2. cbn [fl_draws]. rewrite (nodes_count _ Hm). lia.
          * rewrite Eu, Elen2. cbn [fl_log]. replace (Datatypes.S (Datatypes.S k) - 1)%nat with (Datatypes.S k) by lia. destruct Hb as [Hb1 Hb2]. split; [exact Hb1|]. intros i S1 m1 Hi E1. apply (Hb2 i S1 m1 Hi). rewrite nth_error_app1 in E1 by lia. exact E1.
    Qed.

    (** the values in the histories *)
    Definition entry (hs : list (acts * network)) (k : nat) (v : L) : particle :=
      match nth_error hs k with
      | Some (S1, _) => match dget S1 v with Some q => q | None => start place push 0 end
      | None => start place push 0
      end.
    Definition netw (hs : list (acts * network)) (k : nat) : network := match nth_error hs k with Some (_, m) => m | None => n0 end.

    Lemma entry_at hs k S m v : chain hs -> nth_error hs k = Some (S, m) -> In v vs -> dget S v = Some (entry hs k v).
    Proof. intros (_ & Hall & _) E Hv. destruct (Hall _ _ _ E) as (_ & _ & Hk). unfold entry. rewrite E. apply Hk in Hv. apply dget_key_some in Hv. destruct Hv as [q ->]. reflexivity. Qed.
    Lemma chain_at hs k : (k < length hs)%nat -> exists S, nth_error hs k = Some (S, netw hs k).
    Proof. intros Hk. unfold netw. destruct (nth_error hs k) as [[S m]|] eqn:E; [exists S; reflexivity|apply nth_error_None in E; lia]. Qed.
    Lemma in_vs m v : swarm_net vs m -> In v (nodes m) -> In v vs.
    Proof. intros Hm. apply (sn_nodes _ _ Hm). Qed.

    (** the step of a node *)
    Lemma entry_step hs k j v : chain hs -> (S k < length hs)%nat -> nth_error (nodes (netw hs k)) j = Some v ->
      exists g, first_best f lt (map (fun w => mid (entry hs k w)) (neighbours (netw hs k) v)) g /\ entry hs (S k) v = moved f lt add vel (2 * (k * N + j)) g (entry hs k v).
    Proof.
      intros Hc Hk Ej. destruct (chain_at hs k ltac:(lia)) as [S ES]. destruct (chain_at hs (Datatypes.S k) Hk) as [S' ES']. pose proof Hc as (_ & Hall & Hlk).
      destruct (Hall _ _ _ ES) as (Hm & _ & _). destruct (Hlk _ _ _ _ _ ES ES') as (_ & _ & Hl). destruct (Hl j v Ej) as (q & g & bs & E1 & Hbs & Hg & E2).
      assert (Hv : In v vs) by (apply (in_vs _ _ Hm), (nth_error_In _ _ Ej)).
      rewrite (entry_at _ _ _ _ _ Hc ES Hv) in E1. rewrite (entry_at _ _ _ _ _ Hc ES' Hv) in E2. injection E1 as <-. injection E2 as ->. exists g. split; [|reflexivity].
      replace (map (fun w => mid (entry hs k w)) (neighbours (netw hs k) v)) with bs; [exact Hg|].
      destruct (sn_closed _ _ Hm v (nth_error_In _ _ Ej)) as (conn & l & _ & Hnb & Hin). rewrite (neighbours_of _ _ _ Hnb) in *. clear - Hbs Hin Hc ES Hm.
      induction Hbs as [|w b ws bs (q & Eq & <-) _ IH]; [reflexivity|]. cbn [map]. rewrite <- IH by (intros y Hy; apply Hin; right; exact Hy). f_equal. rewrite (entry_at _ _ _ _ _ Hc ES) in Eq; [injection Eq as <-; reflexivity|]. apply (in_vs _ _ Hm), Hin. left. reflexivity.
    Qed.
    Lemma entry_start hs v : chain hs -> In v vs -> exists j, nth_error vs j = Some v /\ entry hs 0 v = start place push j.
    Proof.
      intros (E0 & _) Hv. apply In_nth_error in Hv. destruct Hv as [j Ej]. exists j. split; [exact Ej|]. unfold entry. rewrite E0, (dget_row _ _ _ _ (sn_nodup _ _ Hn0) Ej). reflexivity.
    Qed.
    Lemma entry_moves hs k v : chain hs -> (S k < length hs)%nat -> In v vs -> exists j g, nth_error (nodes (netw hs k)) j = Some v /\ entry hs (S k) v = moved f lt add vel (2 * (k * N + j)) g (entry hs k v).
    Proof.
      intros Hc Hk Hv. destruct (chain_at hs k ltac:(lia)) as [S ES]. pose proof Hc as (_ & Hall & _). destruct (Hall _ _ _ ES) as (Hm & _ & _).
      apply (sn_nodes _ _ Hm) in Hv. apply In_nth_error in Hv. destruct Hv as [j Ej]. destruct (entry_step hs k j v Hc Hk Ej) as (g & _ & E). eauto.
    Qed.
    Lemma moved_mid m g q : mid (moved f lt add vel m g q) = if lt (f (fst (fst (moved f lt add vel m g q)))) (f (mid q)) then fst (fst (moved f lt add vel m g q)) else mid q.
    Proof. destruct q as [[x p] v]. reflexivity. Qed.
    Lemma entry_best hs k v : chain hs -> (k < length hs)%nat -> In v vs -> first_best f lt (upto (fun l => fst (fst (entry hs l v))) k) (mid (entry hs k v)).
    Proof.
      intros Hc Hk Hv. induction k as [|k IH].
      - destruct (entry_start hs v Hc Hv) as (j & _ & Ej). unfold upto. cbn [seq map]. rewrite Ej. apply first_best_one, Hlt.
      - destruct (entry_moves hs k v Hc Hk Hv) as (j & g & _ & E). rewrite upto_S, E, moved_mid. apply first_best_snoc; [exact Hlt|]. apply IH. lia.
    Qed.

    Definition value_of (log : list (Z * F)) (k : nat) : F := match nth_error log k with Some (_, y) => y | None => f (place 0) end.

    Lemma values_entry hs k S m b : chain hs -> nth_error hs k = Some (S, m) -> (In b (values S) <-> exists v, In v vs /\ b = mid (entry hs k v)).
    Proof.
      intros Hc E. pose proof Hc as (_ & Hall & _). destruct (Hall _ _ _ E) as (_ & Hnd & Hk). unfold values. rewrite in_map_iff. split.
      - intros ([v q] & <- & Hin). cbn [snd]. exists v. assert (Hv : In v vs) by (apply Hk; apply (in_map fst) in Hin; exact Hin). split; [exact Hv|]. pose proof (dget_in _ _ _ Hnd Hin) as Eg. rewrite (entry_at _ _ _ _ _ Hc E Hv) in Eg. congruence.
      - intros (v & Hv & ->). exists (v, entry hs k v). split; [reflexivity|]. apply dget_some_in, (entry_at _ _ _ _ _ Hc E Hv).
    Qed.

    Theorem local_search_run hs uf : Z.of_nat (length hs) = T -> LFin hs uf ->
      local_search f lt add vel N (Z.to_nat T) (fun k => nodes (netw hs k)) (fun k => neighbours (netw hs k))
        (fun k v => fst (fst (entry hs k v))) (fun k v => mid (entry hs k v)) (fun k v => snd (entry hs k v)) (value_of (fl_log uf)) /\
      fl_log uf = map (fun k => (Z.of_nat k + 1, value_of (fl_log uf) k)) (seq 0 (Z.to_nat T)).
    Proof.
      intros Hl (Hc & Hlen & Hlog). assert (ET : Z.to_nat T = length hs) by lia. rewrite ET.
      assert (E0 : netw hs 0 = n0) by (destruct Hc as (E0 & _); unfold netw; rewrite E0; reflexivity).
      assert (Hval : forall k, (k < length hs)%nat -> nth_error (fl_log uf) k = Some (Z.of_nat k + 1, value_of (fl_log uf) k) /\
        exists b, value_of (fl_log uf) k = f b /\ (exists v, In v vs /\ b = mid (entry hs k v)) /\ forall v, In v vs -> lt (f (mid (entry hs k v))) (f b) = false).
      { intros k Hk. destruct (chain_at hs k Hk) as [S ES]. destruct (Hlog k _ _ Hk ES) as (b & Hb & Eb). assert (Ev : value_of (fl_log uf) k = f b) by (unfold value_of; rewrite Eb; reflexivity).
        rewrite Ev. split; [exact Eb|]. exists b. split; [reflexivity|]. split; [apply (values_entry hs k S _ b Hc ES), (first_best_in f lt _ _ Hb)|].
        intros v Hv. apply (first_best_min f lt _ _ _ Hb), (values_entry hs k S _ _ Hc ES). eauto. }
      assert (Hopt : forall k l v, (l <= k)%nat -> (k < length hs)%nat -> In v vs -> lt (f (fst (fst (entry hs l v)))) (value_of (fl_log uf) k) = false).
      { intros k l v Hlk Hk Hv. destruct (Hval k Hk) as (_ & b & -> & _ & Hmin). apply (no_better_trans lt Hlt _ (f (mid (entry hs k v)))); [|apply Hmin, Hv].
        apply (first_best_min f lt _ _ _ (entry_best hs k v Hc Hk Hv)), (in_upto (fun l => fst (fst (entry hs l v)))), Hlk. }
      assert (Hfound : forall k, (k < length hs)%nat -> exists v l, In v vs /\ (l <= k)%nat /\ value_of (fl_log uf) k = f (fst (fst (entry hs l v)))).
      { intros k Hk. destruct (Hval k Hk) as (_ & b & -> & (v & Hv & ->) & _). destruct (upto_in _ _ _ (first_best_in f lt _ _ (entry_best hs k v Hc Hk Hv))) as (l & Hlk & ->). exists v, l. auto. }
      split.
      - split; rewrite ?E0; try assumption.
        + intros k j v Hk Ej. destruct (entry_step hs k j v Hc Hk Ej) as (g & Hg & E). exists g. split; [exact Hg|]. rewrite E. destruct (entry hs k v) as [[x p] w]. reflexivity.
        + intros k v Hk Hv. destruct (chain_at hs k ltac:(lia)) as [S ES]. pose proof Hc as (_ & Hall & _). destruct (Hall _ _ _ ES) as (Hm & _ & _).
          destruct (entry_moves hs k v Hc Hk (in_vs _ _ Hm Hv)) as (j & g & _ & ->). destruct (entry hs k v) as [[x p] w]. reflexivity.
        + intros k v Hk Hv. apply entry_best; assumption.
        + intros k l Hlk Hk. destruct (Hfound l ltac:(lia)) as (v & l' & Hv & Hl' & ->). apply Hopt; [lia|exact Hk|exact Hv].
      - apply nth_error_ext. intros k. rewrite nth_error_map. destruct (Nat.lt_ge_cases k (length hs)) as [Hk|Hk].
        + rewrite nth_error_nth' with (d := 0%nat) (l := seq 0 (length hs)) by (rewrite seq_length; exact Hk). rewrite seq_nth by exact Hk. exact (proj1 (Hval k Hk)).
        + rewrite !(proj2 (nth_error_None _ _)); [reflexivity| |]; [rewrite seq_length; lia|lia].
    Qed.
  End Run.

  (** ** pso_local_demo.py and pso_dynamic_demo.py: on networks in which every node has a neighbour, with or without a topology rule
      that returns such networks, the demo is the search of [local_search]: [T] states, [T] reports, each report is the best value any particle
      has found so far. *)
  Theorem C105_neighbours : forall fuel T (n : network) topo, weak_order lt -> swarm_net (nodes n) n -> nodes n <> [] -> 1 <= T -> (Z.to_nat T <= fuel)%nat ->
    (forall R, topo = Some R -> forall m S t, 1 <= t < T -> exists m', R m S t = Ok m' /\ swarm_net (nodes n) m') ->
    exists uf traj order nb pos best speed report,
      evolve W fuel (mkFlock 0 []) n (Some (CDict (fst (init_swarm f lt place push n)))) None (Some (InputFun (local_input f lt T))) (local_args f lt add sub mul dot3 rand topo) = Ok (uf, traj) /\
      Z.of_nat (length traj) = T /\
      local_search f lt add vel (length (nodes n)) (Z.to_nat T) order nb pos best speed report /\
      order 0%nat = nodes n /\ (forall j v, nth_error (nodes n) j = Some v -> pos 0%nat v = place j /\ speed 0%nat v = push j) /\
      fl_log uf = map (fun k => (Z.of_nat k + 1, report k)) (seq 0 (Z.to_nat T)) /\
      forall k s, nth_error traj k = Some s -> exists S m, activities W s = Ok (Some S) /\ state_network W s = Ok (Some m) /\ order k = nodes m /\
        (forall v, In v (nodes m) <-> In v (nodes n)) /\ (forall v, In v (nodes m) -> nbrs_of m v (nb k v)) /\
        (forall v, In v (nodes n) -> dget S v = Some (pos k v, best k v, speed k v)) /\
        (k = 0%nat -> m = n) /\
        (** the network of the next state is what the topology rule returned *)
        forall s', nth_error traj (Datatypes.S k) = Some s' -> exists S' m', activities W s' = Ok (Some S') /\ state_network W s' = Ok (Some m') /\
          match topo with None => m' = m | Some R => R (copy m) S' (Z.of_nat k + 1) = Ok m' end.
  Proof.
    intros fuel T n topo Hlt Hn Hne HT Hfuel Htopo. rewrite init_swarm_eq by apply (sn_nodup _ _ Hn). cbn [fst].
    destruct (local_run Hlt n topo T Hn Hne HT Htopo fuel Hfuel) as (uf & traj & hs & E & Hl & Hf & HF).
    destruct (local_search_run Hlt n topo T Hn HT hs uf Hl HF) as [Hs Hlog].
    eexists uf, traj, _, _, _, _, _, _. split; [exact E|]. split; [rewrite (Forall2_len _ _ _ Hf); exact Hl|]. split; [exact Hs|]. pose proof (proj1 HF) as Hc. pose proof Hc as (E0 & Hall & _).
    split; [unfold netw; rewrite E0; reflexivity|]. split.
    { intros j v Ej. unfold entry. rewrite E0, (dget_row _ _ _ _ (sn_nodup _ _ Hn) Ej). split; reflexivity. }
    split; [exact Hlog|].
    assert (Hnz : exists v, In v (nodes n)) by (destruct (nodes n) as [|v l]; [congruence|exists v; left; reflexivity]). destruct Hnz as [v0 Hv0].
    assert (Hshow : forall k s, nth_error traj k = Some s -> exists S m, nth_error hs k = Some (S, m) /\ activities W s = Ok (Some S) /\ state_network W s = Ok (Some m)).
    { intros k s Ek. destruct (nth_error hs k) as [[S m]|] eqn:Eh.
      2: { apply nth_error_None in Eh. assert (nth_error traj k <> None) as Hx by congruence. apply nth_error_Some in Hx. rewrite (Forall2_len _ _ _ Hf) in Hx. lia. }
      destruct (Forall2_at _ _ _ _ _ _ Hf Ek Eh) as [Ea En]. cbn [fst snd] in *. destruct (Hall _ _ _ Eh) as (Hm & HndS & HkS). exists S, m. split; [reflexivity|]. split.
      - rewrite Ea. pose proof (proj2 (HkS v0) Hv0) as Hx. destruct S; [destruct Hx|reflexivity].
      - rewrite En. pose proof (proj2 (sn_nodes _ _ Hm v0) Hv0) as Hx. unfold shown_net. destruct (nodes m) eqn:Enm; [destruct Hx|]. reflexivity. }
    intros k s Ek. destruct (Hshow k s Ek) as (S & m & Eh & Ea & En). destruct (Hall _ _ _ Eh) as (Hm & HndS & HkS). exists S, m.
    assert (Em : netw n hs k = m) by (unfold netw; rewrite Eh; reflexivity).
    split; [exact Ea|]. split; [exact En|]. split; [rewrite Em; reflexivity|]. split; [apply (sn_nodes _ _ Hm)|]. split; [|split; [|split]].
    - intros v Hv. rewrite Em. destruct (sn_nbrs _ _ Hm v Hv) as (l & Hnb & _). rewrite (neighbours_of _ _ _ Hnb). exact Hnb.
    - intros v Hv. rewrite (entry_at _ _ _ _ _ _ _ Hc Eh Hv). destruct (entry hs k v) as [[? ?] ?]. reflexivity.
    - intros ->. congruence.
    - intros s' Ek'. destruct (Hshow _ s' Ek') as (S' & m' & Eh' & Ea' & En'). exists S', m'. split; [exact Ea'|]. split; [exact En'|]. pose proof Hc as (_ & _ & Hlk). exact (proj1 (Hlk _ _ _ _ _ Eh Eh')).
  Qed.

  (** ** A node without neighbours has nobody to follow: [None - x_i] *)
  Theorem C105_isolated : forall fuel T (n : network) topo v, weak_order lt -> NoDup (nodes n) -> closed n -> 2 <= T -> (1 <= fuel)%nat -> In v (nodes n) -> nbrs_of n v [] ->
    evolve W fuel (mkFlock 0 []) n (Some (CDict (fst (init_swarm f lt place push n)))) None (Some (InputFun (local_input f lt T))) (local_args f lt add sub mul dot3 rand topo) = Err TypeError.
  Proof.
    intros fuel T n topo v Hlt Hnd Hcl HT Hfuel Hv Hnb. rewrite init_swarm_eq by assumption. cbn [fst]. set (ic := row (nodes n) (start place push)).
    assert (Hvals : values ic <> []) by (unfold values; intros E; apply map_eq_nil in E; pose proof (length_row (nodes n) (start place push)) as El; fold ic in El; rewrite E in El; destruct (nodes n); [destruct Hv|discriminate]).
    destruct (consider_best f lt Hlt (values ic) Hvals) as (b & Eb & _).
    assert (Hfirst : exists done w rest, nodes n = done ++ w :: rest /\ nbrs_of n w [] /\ forall y, In y done -> ~ nbrs_of n y []).
    { assert (Hd : forall y, nbrs_of n y [] \/ ~ nbrs_of n y []).
      { intros y. unfold nbrs_of. destruct (net_rot n) as [r|]; [destruct (dget r y) as [[|]|]; [left; reflexivity|right; discriminate|right; discriminate]|].
        destruct (in_edges n y) as [[|e inc]|e]; [left; exists []; split; reflexivity|right; intros (i & Ei & Ex); injection Ei as <-; discriminate|right; intros (i & Ei & _); discriminate]. }
      clear - Hv Hnb Hd. induction (nodes n) as [|y l IH]; [destruct Hv|]. destruct (Hd y) as [Hy|Hy].
      - exists [], y, l. split; [reflexivity|]. split; [exact Hy|]. intros z [].
      - destruct Hv as [->|Hv]; [contradiction|]. destruct (IH Hv) as (done & w & rest & -> & Hw & Hall). exists (y :: done), w, rest. split; [reflexivity|]. split; [exact Hw|]. intros z [<-|Hz]; auto. }
    destruct Hfirst as (done & w & rest & En & Hw & Hbefore).
    eapply (driven_raises W fuel (mkFlock 0 []) n (CDict ic) None (Some (InputFun (local_input f lt T))) (local_input f lt T) _ (local_rule f lt add sub mul dot3 rand)).
    - repeat split.
    - reflexivity.
    - exact Hfuel.
    - cbn [to_dict]. unfold ic. rewrite length_row. unfold nodes, net_len, dkeys. rewrite map_length. reflexivity.
    - cbn [to_dict]. unfold local_input. fold (values ic). rewrite Eb. destruct (Z.eqb_spec 1 T); [lia|]. reflexivity.
    - intros mk tab. cbn [to_dict]. apply (sweep_raises (U:=flock) W _ _ _ _ _ _ _ _ _ _ done w rest (fun _ _ => True)); try reflexivity; try assumption; try exact Logic.I.
      + intros y Hy. apply dget_key_some. unfold ic. rewrite dkeys_row. exact Hy.
      + intros y _. eexists. reflexivity.
      + intros pre y post u x Ed _ Hx. pose proof (cf_nbrs _ _ _ _ _ _ _ _ Hx) as Hn. pose proof (Forall2_len _ _ _ (cf_nacts _ _ _ _ _ _ _ _ Hx)) as El.
        assert (Hyd : In y done) by (rewrite Ed; apply in_or_app; right; left; reflexivity). set (bs := map (fun q => mid q) (x_nacts x)).
        destruct (consider_best f lt Hlt bs) as (g & Eg & _). { unfold bs. intros E0. apply map_eq_nil in E0. rewrite E0 in El. destruct (x_nbrs x); [|discriminate]. exact (Hbefore y Hyd Hn). }
        unfold local_rule. fold bs. rewrite Eg. destruct (x_cur x) as [[? ?] ?]. eexists _, _. split; [reflexivity|exact Logic.I].
      + intros u x _ Hx. pose proof (nbrs_fun _ _ _ _ Hw (cf_nbrs _ _ _ _ _ _ _ _ Hx)) as Hn. pose proof (cf_nacts _ _ _ _ _ _ _ _ Hx) as Ha. rewrite <- Hn in Ha.
        unfold local_rule. destruct (x_nacts x); [|inversion Ha]. destruct (x_cur x) as [[? ?] ?]. reflexivity.
  Qed.
End Local.
Print Assumptions C105_neighbours.
Print Assumptions C105_isolated.

(** ** The networks of the demos *)
Lemma edge_swarm_net (vs : list Z) (net : network Z Z) : net_rot net = None -> NoDup (nodes net) -> (forall v, In v (nodes net) <-> In v vs) ->
  (forall a b w, edge net a b = Ok w -> In a (nodes net)) -> (forall v, In v (nodes net) -> exists a w, edge net a v = Ok w) -> swarm_net vs net.
Proof.
  intros Hrot Hnd Hv Hin Hex.
  assert (Hie : forall v, In v (nodes net) -> exists inc, in_edges net v = Ok inc) by (intros v Hv'; unfold in_edges; apply dget_key_some in Hv'; destruct Hv' as [nd ->]; eexists; reflexivity).
  split; try assumption.
  - intros v Hv'. destruct (Hie v Hv') as [inc Ei]. exists inc, (map fst inc). split; [exact Ei|]. split; [unfold nbrs_of; rewrite Hrot; eauto|].
    intros u Hu. apply dget_key_some in Hu. destruct Hu as [w Ew]. apply (Hin u v w). unfold edge. rewrite Ei. cbn [rbind]. rewrite Ew. reflexivity.
  - intros v Hv'. destruct (Hie v Hv') as [inc Ei]. exists (map fst inc). split; [unfold nbrs_of; rewrite Hrot; eauto|].
    destruct (Hex v Hv') as (a & w & E). unfold edge in E. rewrite Ei in E. cbn [rbind] in E. destruct inc; [discriminate|]. discriminate.
Qed.
Lemma complete_swarm n : 2 <= n -> exists net, complete n = (net, Ok tt) /\ (forall v, In v (nodes net) <-> 0 <= v < n) /\ swarm_net (nodes net) net.
Proof.
  intros Hn. destruct (complete_spec n Hn) as (net & E & Hv & Hnd & He & Hne). exists net. split; [exact E|]. split; [exact Hv|].
  assert (Hrot : net_rot net = None).
  { unfold complete in E. destruct (Z.leb_spec n 0); [lia|]. destruct (TopologyProofs3.from_adj_R nzb (complete_adjacency n)) as (net' & E' & _ & Hr). rewrite E' in E. injection E as <-. exact Hr. }
  apply edge_swarm_net; try assumption; try reflexivity.
  - intros a b w Eab. apply Hv. destruct (Z_le_dec 0 a), (Z_lt_dec a n); try lia; rewrite Hne in Eab by lia; discriminate.
  - intros v Hv'. apply Hv in Hv'. exists (if v =? 0 then 1 else 0). rewrite He; [eexists; reflexivity| | |]; destruct (Z.eqb_spec v 0); lia.
Qed.
Lemma watts_swarm fuel coin pick n k net : 2 <= k < n -> watts_strogatz_graph fuel coin pick n k = Ok net ->
  (forall v, In v (nodes net) <-> 0 <= v < n) /\ forall vs, (forall v, In v vs <-> 0 <= v < n) -> swarm_net vs net.
Proof.
  intros Hk E. pose proof (C73_small_world fuel coin pick n k Hk) as Hs. cbv zeta in Hs. rewrite E in Hs. destruct Hs as (to & [Hto _] & _ & Hnd & Hv & He & _ & _ & _). split; [exact Hv|]. intros vs Hvs.
  assert (Hrot : net_rot net = None).
  { unfold watts_strogatz_graph in E. destruct (n <? k); [discriminate|]. destruct (Z.eqb_spec k n); [lia|]. destruct (ws_graph fuel coin pick n k) as [g|]; [|discriminate]. cbn [rbind] in E. destruct (ug_adjacency g) as [adj|]; [|discriminate]. cbn [rbind] in E.
    destruct (TopologyProofs3.from_adj_R nzb adj) as (net' & E' & _ & Hr). rewrite E' in E. injection E as <-. exact Hr. }
  destruct (half_facts n k Hk) as [Hh Hn]. assert (Hp : forall a b, partners n (k / 2) to a b -> 0 <= a < n) by (intros a b (u & j & Hw & [[-> ->]|[-> ->]]); [exact (proj1 Hw)|apply Hto, Hw]).
  apply edge_swarm_net; try assumption.
  - intros v. rewrite Hv, Hvs. reflexivity.
  - intros a b w Eab. apply Hv. destruct (He a b) as [_ Hno]. destruct (Z_le_dec 0 a); [destruct (Z_lt_dec a n); [lia|]|]; rewrite Hno in Eab by (intros Hx; apply Hp in Hx; lia); discriminate.
  - intros v Hv'. apply Hv in Hv'. exists (to v 1). destruct (He (to v 1) v) as [Hyes _]. eexists. apply Hyes. exists v, 1. split; [split; [exact Hv'|lia]|]. right. split; reflexivity.
Qed.

Section Demos.
  Context {X F BA BN : Type} `{EqD X}.
  Context (f : X -> F) (lt : F -> F -> bool) (add sub mul : X -> X -> X) (dot3 : X -> X -> X -> X) (rand place push : nat -> X).
  Notation particle := (X * X * X)%type.
  Context (W : env Z Z particle BA BN).
  Notation vel := (fun m x p v g => dot3 v (mul (rand m) (sub p x)) (mul (rand (S m)) (sub g x))).

  (** pso_demo.py as a whole: [n_particles] is [n], [timesteps] is [T] *)
  Theorem C105_pso_demo : forall fuel n T, weak_order lt -> 2 <= n -> 1 <= T -> (Z.to_nat T <= fuel)%nat ->
    exists net ic g, complete n = (net, Ok tt) /\ init_swarm f lt place push net = (ic, g) /\
    exists uf traj pos best speed lead,
      evolve W fuel (mkSwarm g 0 []) net (Some (CDict ic)) None (Some (InputFun (pso_input T))) (pso_args f lt add sub mul dot3 rand) = Ok (uf, traj) /\
      Z.of_nat (length traj) = T /\ swarm_search f lt add vel (length (nodes net)) pos best speed lead /\
      (forall j, pos 0%nat j = place j /\ speed 0%nat j = push j) /\
      sw_log uf = map (fun k => (Z.of_nat k + 1, lead k 0%nat)) (seq 0 (Z.to_nat T)).
  Proof.
    intros fuel n T Hlt Hn HT Hf. destruct (complete_swarm n Hn) as (net & E & Hv & Hs). assert (Hne : nodes net <> []) by (intros E0; pose proof (proj2 (Hv 0) ltac:(lia)) as Hx; rewrite E0 in Hx; destruct Hx).
    pose proof (C105_one_leader f lt add sub mul dot3 rand place push W fuel T net Hlt (sn_nodup _ _ Hs) Hne (sn_closed _ _ Hs) HT Hf) as Hrun.
    destruct (init_swarm f lt place push net) as [ic g] eqn:Ei. exists net, ic, g. split; [exact E|]. split; [exact Ei|]. destruct Hrun as (uf & traj & posn & bst & spd & ld & H1 & H2 & H3 & H4 & H5 & _). exists uf, traj, posn, bst, spd, ld. auto.
  Qed.

  (** pso_local_demo.py and pso_dynamic_demo.py as a whole: the graphs are whatever networkx draws, provided it finishes drawing them;
      [dynamic] says whether there is a topology rule *)
  Theorem C105_small_world_demos : forall fuel fuelw coin pick n k T net (dynamic : bool), weak_order lt -> 2 <= k < n -> 1 <= T -> (Z.to_nat T <= fuel)%nat ->
    watts_strogatz_graph fuelw (coin 0) (pick 0) n k = Ok net ->
    (dynamic = true -> forall t, 1 <= t < T -> exists m, watts_strogatz_graph fuelw (coin t) (pick t) n k = Ok m) ->
    exists uf traj order nb pos best speed report,
      evolve W fuel (mkFlock 0 []) net (Some (CDict (fst (init_swarm f lt place push net)))) None (Some (InputFun (local_input f lt T)))
        (local_args f lt add sub mul dot3 rand (if dynamic then Some (rewire_topology fuelw coin pick n k) else None)) = Ok (uf, traj) /\
      Z.of_nat (length traj) = T /\
      local_search f lt add vel (Z.to_nat n) (Z.to_nat T) order nb pos best speed report /\
      fl_log uf = map (fun k => (Z.of_nat k + 1, report k)) (seq 0 (Z.to_nat T)) /\
      (** the recorded networks are the graphs that were drawn *)
      (forall j s, nth_error traj j = Some s -> exists m, state_network W s = Ok (Some m) /\ order j = nodes m /\ (forall v, In v (nodes m) <-> 0 <= v < n) /\ (forall v, In v (nodes m) -> nbrs_of m v (nb j v)) /\
         let t := if dynamic then Z.of_nat j else 0 in watts_strogatz_graph fuelw (coin t) (pick t) n k = Ok m).
  Proof.
    intros fuel fuelw coin pick n k T net dynamic Hlt Hk HT Hf E Hdyn. destruct (watts_swarm _ _ _ _ _ _ Hk E) as [Hv Hs]. specialize (Hs _ Hv) as Hn.
    assert (Hne : nodes net <> []) by (intros E0; pose proof (proj2 (Hv 0) ltac:(lia)) as Hx; rewrite E0 in Hx; destruct Hx).
    assert (Hlen : length (nodes net) = Z.to_nat n).
    { replace (Z.to_nat n) with (length (zrange 0 n)) by (rewrite length_zrange; f_equal; lia). apply Nat.le_antisymm; apply NoDup_incl_length; [apply (sn_nodup _ _ Hn)| |apply NoDup_zrange|]; intros v Hv'; [apply in_zrange, Hv, Hv'|apply Hv, in_zrange, Hv']. }
    set (topo := if dynamic then Some (rewire_topology (A:=dict Z particle) fuelw coin pick n k) else None).
    destruct (C105_neighbours f lt add sub mul dot3 rand place push W fuel T net topo Hlt Hn Hne HT Hf) as (uf & traj & order & nb & posn & bst & spd & rep & H1 & H2 & H3 & _ & _ & H4 & H5).
    - intros R ER m S t Ht. unfold topo in ER. destruct dynamic; [|discriminate]. injection ER as <-. destruct (Hdyn eq_refl t Ht) as [m' Em']. exists m'. split; [exact Em'|]. apply (watts_swarm _ _ _ _ _ _ Hk Em'), Hv.
    - exists uf, traj, order, nb, posn, bst, spd, rep. split; [exact H1|]. split; [exact H2|]. rewrite Hlen in H3. split; [exact H3|]. split; [exact H4|].
      assert (Hnet : forall j s, nth_error traj j = Some s -> exists m, state_network W s = Ok (Some m) /\ let t := if dynamic then Z.of_nat j else 0 in watts_strogatz_graph fuelw (coin t) (pick t) n k = Ok m).
      { induction j as [|j IH]; intros s Ej.
        - destruct (H5 _ _ Ej) as (S & m & _ & Em & _ & _ & _ & _ & E0 & _). exists m. split; [exact Em|]. rewrite (E0 eq_refl). destruct dynamic; exact E.
        - destruct (nth_error traj j) as [s0|] eqn:Ej0. 2: { apply nth_error_None in Ej0. assert (nth_error traj (S j) <> None) as Hx by congruence. apply nth_error_Some in Hx. lia. }
          destruct (IH s0 eq_refl) as (m0 & Em0 & Ew0). destruct (H5 _ _ Ej0) as (S & m & _ & Em & _ & _ & _ & _ & _ & Hnx). rewrite Em0 in Em. injection Em as <-.
          destruct (Hnx s Ej) as (S' & m' & _ & Em' & Et). exists m'. split; [exact Em'|]. unfold topo in Et. destruct dynamic; [|rewrite Et; exact Ew0]. unfold rewire_topology in Et. cbv zeta. replace (Z.of_nat (Datatypes.S j)) with (Z.of_nat j + 1) by lia. exact Et. }
      intros j s Ej. destruct (Hnet j s Ej) as (m & Em & Ew). destruct (H5 _ _ Ej) as (S & m' & _ & Em' & Eo & Hnn & Hnb & _). rewrite Em in Em'. injection Em' as <-. exists m. split; [exact Em|]. split; [exact Eo|]. split; [intros v; rewrite Hnn; apply Hv|]. split; [exact Hnb|exact Ew].
  Qed.
End Demos.
Print Assumptions C105_pso_demo.
Print Assumptions C105_small_world_demos.

(** ** Examples and boundaries, with integers: the objective is the distance from 0, the weights are 1 *)
Definition Wp : env Z Z (Z * Z * Z) unit unit := mkEnv Z.of_nat Some (fun _ => 0) (fun _ => Err Unmodelled) (fun _ => Err Unmodelled) (fun _ => Err Unmodelled) (fun _ => Err Unmodelled).
Definition dot_z (a b c : Z) : Z := a + b + c.
Definition place_z (j : nat) : Z := nth j [9; -7; 8; 12] 0.
Definition push_z (j : nat) : Z := nth j [-5; 1; 0; 2] 0.
Definition rand_z (i : nat) : Z := nth (i mod 5) [1; 0; 1; 1; 0] 0.
Lemma ltb_weak_order : weak_order Z.ltb.
Proof. split; intros; rewrite ?Z.ltb_lt, ?Z.ltb_ge in *; lia. Qed.

Definition net4 : network Z Z := fst (complete 4).
Definition run4 := evolve Wp 4 (mkSwarm (snd (init_swarm Z.abs Z.ltb place_z push_z net4)) 0 []) net4 (Some (CDict (fst (init_swarm Z.abs Z.ltb place_z push_z net4)))) None (Some (InputFun (pso_input 4))) (pso_args Z.abs Z.ltb Z.add Z.sub Z.mul dot_z rand_z).

Example C105_global_met : weak_order Z.ltb /\ complete 4 = (net4, Ok tt) /\
  match run4 with Ok (u, traj) => length traj = 4%nat /\ sw_log u = [(1, -7); (2, 4); (3, -1); (4, -1)] | Err _ => False end.
Proof. split; [exact ltb_weak_order|]. split; [vm_compute; reflexivity|]. vm_compute. auto. Qed.

(** The particles of one timestep do not all follow the leader printed at this timestep: particle 1 already follows what particle 0 has just found.
    So the result depends on the order of the nodes, unlike that of an automaton whose nodes are updated at the same time. *)
Theorem C105_same_leader_refuted : exists S0 S1 x p v x' p' v' g,
  match run4 with
  | Ok (u, s0 :: s1 :: _) => activities Wp s0 = Ok (Some S0) /\ activities Wp s1 = Ok (Some S1) /\ nth_error (sw_log u) 0 = Some (1, g)
  | _ => False
  end /\
  dget S0 1 = Some (x, p, v) /\ dget S1 1 = Some (x', p', v') /\
  v' <> dot_z v (rand_z 2 * (p - x)) (rand_z 3 * (g - x)) /\ v' = dot_z v (rand_z 2 * (p - x)) (rand_z 3 * (4 - x)) /\ dget S1 0 = Some (4, 4, -5).
Proof.
  exists [(0, (9, 9, -5)); (1, (-7, -7, 1)); (2, (8, 8, 0)); (3, (12, 12, 2))], [(0, (4, 4, -5)); (1, (5, 5, 12)); (2, (4, 4, -4)); (3, (6, 6, -6))], (-7), (-7), 1, 5, 5, 12, (-7).
  split; [vm_compute; auto|]. split; [reflexivity|]. split; [reflexivity|]. split; [vm_compute; discriminate|]. split; reflexivity.
Qed.
Print Assumptions C105_same_leader_refuted.

(** With a value that compares false with everything (NaN) the claim about the best position fails: here 0 has no value. The first particle starts there,
    remains the leader for the whole search, and no better position is ever reported. *)
Definition nan_value (x : Z) : option Z := if x =? 0 then None else Some (Z.abs x).
Definition nan_lt (a b : option Z) : bool := match a, b with Some a, Some b => a <? b | _, _ => false end.
Definition place_nan (j : nat) : Z := nth j [0; -7; 8; 1] 0.
Theorem C105_nan_refuted : ~ weak_order nan_lt /\
  match evolve Wp 4 (mkSwarm (snd (init_swarm nan_value nan_lt place_nan push_z net4)) 0 []) net4 (Some (CDict (fst (init_swarm nan_value nan_lt place_nan push_z net4)))) None
    (Some (InputFun (pso_input 4))) (pso_args nan_value nan_lt Z.add Z.sub Z.mul dot_z rand_z) with
  | Ok (uf, _) => map (fun l => nan_value (snd l)) (sw_log uf) = [None; None; None; None]
  | Err _ => False
  end /\ nan_value (place_nan 3) = Some 1.
Proof.
  split.
  - intros Hw. destruct (wo_cotrans _ Hw (Some 1) None (Some 2) eq_refl); discriminate.
  - split; [vm_compute; reflexivity|reflexivity].
Qed.
Print Assumptions C105_nan_refuted.

(** the other two demos *)
Definition pick_z (t : Z) (i : nat) : Z := Z.of_nat i * 3 + t.
Definition coin_z (t j u : Z) : bool := (u + t) mod 2 =? 0.
Definition ws0 : network Z Z := match watts_strogatz_graph 50 (coin_z 0) (pick_z 0) 5 2 with Ok m => m | Err _ => empty_network end.
Definition place_5 (j : nat) : Z := nth j [9; -7; 8; 12; 3] 0.
Definition run5 (dynamic : bool) := evolve Wp 4 (mkFlock 0 []) ws0 (Some (CDict (fst (init_swarm Z.abs Z.ltb place_5 push_z ws0)))) None (Some (InputFun (local_input Z.abs Z.ltb 4)))
  (local_args Z.abs Z.ltb Z.add Z.sub Z.mul dot_z rand_z (if dynamic then Some (rewire_topology 50 coin_z pick_z 5 2) else None)).
Example C105_small_world_met : watts_strogatz_graph 50 (coin_z 0) (pick_z 0) 5 2 = Ok ws0 /\ (forall t, 1 <= t < 4 -> exists m, watts_strogatz_graph 50 (coin_z t) (pick_z t) 5 2 = Ok m) /\
  match run5 false, run5 true with Ok (u, _), Ok (u', _) => fl_log u = [(1, 3); (2, 3); (3, 1); (4, 1)] /\ fl_log u' = [(1, 3); (2, 3); (3, 1); (4, 1)] | _, _ => False end.
Proof.
  split; [vm_compute; reflexivity|]. split; [|vm_compute; auto].
  intros t Ht. assert (t = 1 \/ t = 2 \/ t = 3) as [->|[->| ->]] by lia; eexists; vm_compute; reflexivity.
Qed.
(** a node that only sends: node 0 of the network 0 -> 1 *)
Example C105_isolated_met : let n := fst (add_edge (V:=Z) 0 1 [] empty_network) in NoDup (nodes n) /\ In 0 (nodes n) /\ nbrs_of n 0 [] /\
  evolve Wp 3 (mkFlock 0 []) n (Some (CDict (fst (init_swarm Z.abs Z.ltb place_5 push_z n)))) None (Some (InputFun (local_input Z.abs Z.ltb 3))) (local_args Z.abs Z.ltb Z.add Z.sub Z.mul dot_z rand_z None) = Err TypeError.
Proof. split; [repeat constructor; cbn; intuition congruence|]. split; [left; reflexivity|]. split; [exists []; split; reflexivity|]. vm_compute. reflexivity. Qed.
