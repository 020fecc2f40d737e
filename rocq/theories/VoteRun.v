(** Running the voting rule on a network. *)
From Verif Require Import Py PyFacts ListFacts Network NetworkSpec NetworkProofs NetworkProofs2 Topology Evolve EvolveSpec EvolveProofs EvolveStatic Rules RulesSpec RulesProofs CaSpec CaRun CaNets EcaSpec HopfieldProofs WattsStrogatzSpec WattsStrogatz WattsStrogatzProofs PropSmallWorld VoteSpec VoteProofs Vote.
Open Scope string_scope.
Open Scope list_scope.
Open Scope Z_scope.

(** the rule on zeros and ones *)
Lemma occurs_bits l : Forall bit l -> Z.of_nat (occurs l 1) = zsum l /\ Z.of_nat (occurs l 0) = Z.of_nat (length l) - zsum l.
Proof.
  induction l as [|a l IH]; intros Hb; [split; reflexivity|]. inversion Hb as [|? ? Ha Hb']; subst. destruct (IH Hb') as [E1 E0]. rewrite zsum_cons. cbn [occurs length].
  destruct Ha as [-> | ->]; destruct (Z.eq_dec 0 1), (Z.eq_dec 0 0), (Z.eq_dec 1 1), (Z.eq_dec 1 0); try lia.
Qed.
Lemma strict_zero l : Forall bit l -> 2 * zsum l < Z.of_nat (length l) -> strict_mode l 0.
Proof.
  intros Hb Hl. destruct (occurs_bits l Hb) as [E1 E0]. split; [apply occurs_pos; lia|]. intros y Hy Hn. rewrite Forall_forall in Hb. destruct (Hb y Hy) as [-> | ->]; [congruence|lia].
Qed.
Lemma strict_one l : Forall bit l -> Z.of_nat (length l) < 2 * zsum l -> strict_mode l 1.
Proof.
  intros Hb Hl. destruct (occurs_bits l Hb) as [E1 E0]. split; [apply occurs_pos; lia|]. intros y Hy Hn. rewrite Forall_forall in Hb. destruct (Hb y Hy) as [-> | ->]; [lia|congruence].
Qed.
Lemma majority_some {I} draw (x : node_ctx Z Z Z I) : x_nacts x <> [] -> exists a, majority_rule draw x = Ok a /\ In a (x_nacts x).
Proof.
  intros Hne. unfold majority_rule. destruct (top_counts_spec (x_nacts x)) as [_ Ht].
  assert (Hd : exists a, match x_nacts x with [] => Err ValueError | l => of_opt IndexError (nth_error l (draw mod length l)) end = Ok a /\ In a (x_nacts x)).
  { destruct (x_nacts x) as [|b l] eqn:El; [congruence|]. destruct (nth_error (b :: l) (draw mod length (b :: l))) as [a|] eqn:E; [exists a; split; [cbv zeta; rewrite E; reflexivity|eapply nth_error_In; exact E]|].
    exfalso. apply nth_error_None in E. pose proof (Nat.mod_upper_bound draw (length (b :: l)) ltac:(discriminate)). lia. }
  destruct (top_counts (x_nacts x)) as [|[v c] [|]]; [exact Hd| |exact Hd]. exists v. split; [reflexivity|]. apply (Ht v c). left. reflexivity.
Qed.

Definition val (S : dict Z Z) (v : Z) : Z := match dget S v with Some a => a | None => 0 end.
Lemma val_some S v a : dget S v = Some a -> val S v = a.
Proof. intros E. unfold val. rewrite E. reflexivity. Qed.

Section Run.
  Context {I BA BN : Type} (W : env Z Z Z BA BN).
  Definition chained (D : Z -> Prop) nb (hs : list (dict Z Z)) : Prop :=
    forall k S S', nth_error hs k = Some S -> nth_error hs (Datatypes.S k) = Some S' -> votes D nb (val S) (val S').
  Definition holds_bits (vs : list Z) (S : dict Z Z) : Prop := forall v, In v vs -> exists a, dget S v = Some a /\ bit a.

  Theorem vote_run fuel u0 net nb c T draw : NoDup (nodes net) -> 1 <= T -> (Z.to_nat T <= fuel)%nat -> length (to_dict W c) = net_len net -> closed net ->
    (forall v, In v (nodes net) -> nbrs_of net v (nb v) /\ nb v <> [] /\ forall w, In w (nb v) -> In w (nodes net)) -> holds_bits (nodes net) (to_dict W c) ->
    exists uf traj hs, evolve W fuel u0 net (Some c) (Some T) None (voting_args (I := I) draw) = Ok (uf, traj) /\ Z.of_nat (length hs) = T /\
      Forall2 (fun s S => activities W s = Ok (shown_acts S)) traj hs /\ Forall (holds_bits (nodes net)) hs /\ nth_error hs 0 = Some (to_dict W c) /\ chained (fun v => In v (nodes net)) nb hs.
  Proof.
    intros Hnd HT Hfu Hlen Hcl Hnb Hb0. set (vs := nodes net) in *.
    destruct (static_run W fuel u0 net c T (voting_args draw) (voting_rule (I := I) draw)
      (fun hs _ => Forall (holds_bits vs) hs /\ nth_error hs 0 = Some (to_dict W c) /\ chained (fun v => In v vs) nb hs)) as (uf & traj & hs & E & Hl & Hf & Hi).
    - repeat split.
    - exact HT.
    - exact Hfu.
    - exact Hlen.
    - split; [constructor; [exact Hb0|constructor]|]. split; [reflexivity|]. intros [|k] S S' E1 E2; [discriminate|destruct k; discriminate].
    - intros mk tab hist S u (Hbits & Hz & Hch) Hlt. assert (HbS : holds_bits vs S) by (apply Forall_app in Hbits; destruct Hbits as [_ Hx]; inversion Hx; assumption).
      assert (Hcov : covers net S) by (intros v Hv; destruct (HbS v Hv) as (a & Ea & _); exists a; exact Ea).
      set (past := past_of W (g_past (voting_args (I := I) draw)) (hist ++ [S])).
      destruct (sweep_total W (voting_args draw) mk (voting_rule (I := I) draw) (Z.of_nat (length hist) + 1) S net past tab u
        (fun done _ curr => forall v, In v done -> exists a, dget curr v = Some a /\ (2 * ones nb (val S) v < deg nb v -> a = 0) /\ (deg nb v < 2 * ones nb (val S) v -> a = 1) /\ exists w, In w (nb v) /\ a = val S w)) as (s & Es & Ea & Er & _ & HJ).
      + reflexivity.
      + reflexivity.
      + exact Hcl.
      + exact Hcov.
      + intros v [].
      + intros done v rest u1 curr x En Hd Hx. assert (Hv : In v vs) by (unfold vs; rewrite En; apply in_or_app; right; left; reflexivity). destruct (Hnb v Hv) as (Hnv & Hne & Hin).
        assert (Ex : x_nacts x = map (val S) (nb v)).
        { pose proof (cf_nbrs _ _ _ _ _ _ _ _ Hx) as H1. pose proof (cf_nacts _ _ _ _ _ _ _ _ Hx) as H2. rewrite (CaRun.nbrs_fun net v _ _ H1 Hnv) in H2. apply (nacts_map (fun w => In w vs) S); [exact H2| |exact Hin].
          intros w Hw. destruct (HbS w Hw) as (a & E1 & _). rewrite (val_some _ _ _ E1). exact E1. }
        assert (Hbx : Forall bit (x_nacts x)) by (rewrite Ex; apply Forall_forall; intros a Ha; apply in_map_iff in Ha; destruct Ha as (w & <- & Hw); destruct (HbS w (Hin w Hw)) as (b & E1 & Hb1); rewrite (val_some _ _ _ E1); exact Hb1).
        assert (Eo : zsum (x_nacts x) = ones nb (val S) v) by (rewrite Ex; reflexivity). assert (El : Z.of_nat (length (x_nacts x)) = deg nb v) by (rewrite Ex, map_length; reflexivity).
        destruct (majority_some (draw u1) x) as (a & Em & Hia); [rewrite Ex; destruct (nb v); [congruence|discriminate]|].
        exists (if draws_one x then Datatypes.S u1 else u1), a. split; [unfold voting_rule; rewrite Em; reflexivity|].
        intros w Hw. rewrite dget_dset. destruct (eqd w v) as [-> |Hwv].
        * exists a. split; [reflexivity|]. split; [|split].
          -- intros Hlow. rewrite (majority_strict _ x 0) in Em by (apply strict_zero; [exact Hbx|lia]). congruence.
          -- intros Hhigh. rewrite (majority_strict _ x 1) in Em by (apply strict_one; [exact Hbx|lia]). congruence.
          -- rewrite Ex in Hia. apply in_map_iff in Hia. destruct Hia as (y & Ey & Hy). exists y. split; [exact Hy|congruence].
        * apply in_app_or in Hw. destruct Hw as [Hw|[Hw|[]]]; [apply Hd, Hw|congruence].
      + exists s. split; [exact Es|]. split; [exact Ea|]. split; [exact Er|].
        assert (Hb' : holds_bits vs (s_curr s)).
        { intros v Hv. destruct (HJ v Hv) as (a & Ea1 & _ & _ & w & Hw & Ew). exists a. split; [exact Ea1|]. rewrite Ew. destruct (Hnb v Hv) as (_ & _ & Hin). destruct (HbS w (Hin w Hw)) as (b & E1 & Hb1). rewrite (val_some _ _ _ E1). exact Hb1. }
        split; [apply Forall_app; split; [exact Hbits|constructor; [exact Hb'|constructor]]|]. split; [rewrite nth_error_app1 by (rewrite app_length; cbn [length]; lia); exact Hz|].
        intros k S1 S2 E1 E2. assert (Hk : (Datatypes.S k < length ((hist ++ [S]) ++ [s_curr s]))%nat) by (apply nth_error_Some; congruence). rewrite !app_length in Hk. cbn [length] in Hk.
        rewrite nth_error_app1 in E1 by (rewrite app_length; cbn [length]; lia).
        destruct (Nat.eq_dec k (length hist)) as [-> |Hne].
        * rewrite nth_error_app2 in E1 by lia. rewrite Nat.sub_diag in E1. injection E1 as <-.
          rewrite nth_error_app2 in E2 by (rewrite app_length; cbn [length]; lia). rewrite app_length in E2. cbn [length] in E2.
          replace (Datatypes.S (length hist) - (length hist + 1))%nat with 0%nat in E2 by lia. injection E2 as <-.
          intros v Hv. destruct (HJ v Hv) as (a & Ea1 & H0 & H1 & H2). rewrite (val_some _ _ _ Ea1). auto.
        * rewrite nth_error_app1 in E2 by (rewrite app_length; cbn [length]; lia). apply (Hch k S1 S2 E1 E2).
    - exists uf, traj, hs. tauto.
  Qed.
End Run.

(** the states of a run as a sequence *)
Definition states (hs : list (dict Z Z)) (k : nat) (v : Z) : Z := match nth_error hs k with Some Sa => val Sa v | None => 0 end.
Lemma states_votes D nb hs k : chained D nb hs -> (Datatypes.S k < length hs)%nat -> votes D nb (states hs k) (states hs (Datatypes.S k)).
Proof.
  intros Hc Hk. destruct (nth_error hs k) as [Sa|] eqn:E1; [|apply nth_error_None in E1; lia]. destruct (nth_error hs (Datatypes.S k)) as [Sb|] eqn:E2; [|apply nth_error_None in E2; lia].
  pose proof (Hc k Sa Sb E1 E2) as H. intros v Hv. specialize (H v Hv). unfold states, ones, votes in *. rewrite E1, E2. exact H.
Qed.

(** the small-world network *)
Lemma watts_undirected fuel coin pick n k net : 2 <= k < n -> watts_strogatz_graph fuel coin pick n k = Ok net ->
  exists nb, NoDup (nodes net) /\ (forall v, In v (nodes net) <-> 0 <= v < n) /\ closed net /\ (forall v, In v (nodes net) -> nbrs_of net v (nb v) /\ nb v <> [] /\ forall w, In w (nb v) -> In w (nodes net)) /\
    undirected (nodes net) nb /\ degrees (nodes net) nb = 2 * (n * (k / 2)) /\ forall v w, In v (nodes net) -> (In w (nb v) <-> edge net w v = Ok [[("weight", 1)]]).
Proof.
  intros Hk E. pose proof (C73_small_world fuel coin pick n k Hk) as Hs. cbv zeta in Hs. rewrite E in Hs. destruct Hs as (to & Hwir & _ & Hnd & Hv & He & _ & Hlen & _).
  assert (HR : exists g, R net g /\ net_rot net = None).
  { unfold watts_strogatz_graph in E. destruct (n <? k); [discriminate|]. destruct (Z.eqb_spec k n); [lia|]. destruct (ws_graph fuel coin pick n k) as [g|]; [|discriminate]. cbn [rbind] in E. destruct (ug_adjacency g) as [adj|]; [|discriminate]. cbn [rbind] in E.
    destruct (TopologyProofs3.from_adj_R nzb adj) as (net' & E' & Hg & Hr). rewrite E' in E. injection E as <-. eauto. }
  destruct HR as (g & HR & Hrot). destruct (half_facts n k Hk) as [Hh Hn].
  set (nb := fun v => match in_edges net v with Ok inc => dkeys inc | Err _ => [] end).
  assert (Hie : forall v, In v (nodes net) -> exists inc, in_edges net v = Ok inc /\ nb v = dkeys inc /\ NoDup (dkeys inc)).
  { intros v Hv'. pose proof (in_edges_R net g v HR) as Ei. unfold nb. rewrite Ei. assert (Eb : is_nodeb g v = true) by (apply is_nodeb_true; unfold is_node; rewrite <- (nodes_R _ _ HR); exact Hv'). rewrite Eb. eexists. split; [reflexivity|]. split; [reflexivity|].
    unfold dkeys. rewrite map_map. cbn [fst]. rewrite map_id. unfold in_neighbours. apply NoDup_dedup. }
  assert (Hone : forall a b, edge net a b = Ok [[("weight", 1)]] <-> ~ ~ partners n (k / 2) to a b).
  { intros a b. destruct (He a b) as [Hyes Hno]. split; [intros E1 Hp; rewrite (Hno Hp) in E1; discriminate|]. intros Hp. destruct (edge net a b) as [es|e] eqn:E1; [|exfalso; apply Hp; intros Hq; specialize (Hyes Hq); discriminate].
    destruct (list_eq_dec (list_eq_dec (fun p q : string * Z => ltac:(decide equality; [apply Z.eq_dec|apply string_dec]))) es [[("weight", 1)]]) as [-> |Hne]; [reflexivity|].
    exfalso. apply Hp. intros Hq. specialize (Hyes Hq). congruence. }
  assert (Hedge : forall v w, In v (nodes net) -> (In w (nb v) <-> edge net w v = Ok [[("weight", 1)]])).
  { intros v w Hv'. destruct (Hie v Hv') as (inc & Ei & En & _). rewrite En, Hone. destruct (He w v) as [Hyes Hno]. unfold edge in Hyes, Hno. rewrite Ei in Hyes, Hno. cbn [rbind] in Hyes, Hno. split.
    - intros Hw Hp. apply dget_key_some in Hw. destruct Hw as [es Ees]. specialize (Hno Hp). rewrite Ees in Hno. discriminate.
    - intros Hp. destruct (dget inc w) as [es|] eqn:Ees; [apply dget_some_key in Ees; exact Ees|]. exfalso. apply Hp. intros Hq. specialize (Hyes Hq). discriminate. }
  assert (Hin : forall v w, In v (nodes net) -> In w (nb v) -> In w (nodes net)).
  { intros v w Hv' Hw. apply Hedge in Hw; [|exact Hv']. apply Hone in Hw. apply Hv. destruct (Z_le_dec 0 w); [destruct (Z_lt_dec w n); [lia|]|]; exfalso; apply Hw; intros Hp; apply (partners_bound n (k / 2)) in Hp; try exact Hwir; lia. }
  exists nb. split; [exact Hnd|]. split; [exact Hv|]. split; [|split; [|split; [|split]]].
  - intros v Hv'. destruct (Hie v Hv') as (inc & Ei & En & _). exists inc, (dkeys inc). split; [exact Ei|]. split; [unfold nbrs_of; rewrite Hrot; exists inc; auto|]. intros w Hw. apply (Hin v w Hv'). rewrite En. exact Hw.
  - intros v Hv'. destruct (Hie v Hv') as (inc & Ei & En & _). split; [unfold nbrs_of; rewrite Hrot; exists inc; split; [exact Ei|exact En]|]. split; [|intros w; apply Hin; exact Hv'].
    intros E0. assert (Hp : In (to v 1) (nb v)); [|rewrite E0 in Hp; destruct Hp]. apply Hedge; [exact Hv'|]. apply (He (to v 1) v). exists v, 1. split; [split; [apply Hv, Hv'|lia]|]. right. split; reflexivity.
  - split.
    + exact Hnd.
    + intros v Hv'. destruct (Hie v Hv') as (inc & Ei & En & Hd). rewrite En. exact Hd.
    + exact Hin.
    + intros v w Hv' Hw. pose proof (Hin v w Hv' Hw) as Hw'. apply Hedge in Hw; [|exact Hv']. apply Hedge; [exact Hw'|]. rewrite Hone in *. intros Hp. apply Hw. intros Hq. apply Hp. apply partners_sym, Hq.
  - rewrite <- Hlen. unfold degrees, edges, nodes.
    assert (Hg : forall l, NoDup (dkeys l) -> (forall v nd, In (v, nd) l -> In (v, nd) (net_nodes net)) -> zsum (map (deg nb) (dkeys l)) = Z.of_nat (length (flat_map (fun jv : Z * node Z Z => flat_map (fun ies => map (fun k => (fst ies, fst jv, k)) (snd ies)) (n_inc (snd jv))) l))).
    { induction l as [|[v nd] l IH]; intros Hdl Hl; [reflexivity|]. cbn [dkeys map fst] in *. inversion Hdl as [|? ? Hv1 Hdl']; subst. rewrite zsum_cons. cbn [flat_map]. rewrite app_length, Nat2Z.inj_add. fold (dkeys l). rewrite IH by (try exact Hdl'; intros; apply Hl; right; assumption). f_equal. cbn [snd fst].
      assert (Hvn : In (v, nd) (net_nodes net)) by (apply Hl; left; reflexivity). assert (Ed : dget (net_nodes net) v = Some nd) by (apply dget_in; assumption).
      assert (Hv' : In v (nodes net)) by (eapply dget_some_key; exact Ed). destruct (Hie v Hv') as (inc & Ei & En & Hdi). assert (Einc : n_inc nd = inc) by (unfold in_edges in Ei; rewrite Ed in Ei; cbn in Ei; congruence).
      unfold deg. rewrite En, Einc. f_equal. assert (Hall : forall w es, In (w, es) inc -> length es = 1%nat).
      { intros w es Hwe. apply dget_in in Hwe; [|exact Hdi]. assert (Hw : edge net w v = Ok [[("weight", 1)]]) by (apply Hedge; [exact Hv'|]; rewrite En; eapply dget_some_key; exact Hwe). unfold edge in Hw. rewrite Ei in Hw. cbn [rbind] in Hw. rewrite Hwe in Hw. cbn in Hw. injection Hw as ->. reflexivity. }
      clear - Hall. unfold dkeys. rewrite map_length. induction inc as [|[w es] inc IHi]; [reflexivity|]. cbn [flat_map length fst snd]. rewrite app_length, map_length, (Hall w es (or_introl eq_refl)), <- IHi; [lia|]. intros w' es' H'. apply (Hall w' es'). right. exact H'. }
    apply Hg; [exact Hnd|auto].
  - exact Hedge.
Qed.
