(** Property theorem for demos/functional_network_automata (C91): a signal that burns the edges it has crossed. *)
From Verif Require Import Py PyFacts ListFacts Network NetworkSpec NetworkProofs NetworkProofs2 NetworkProofs3 Topology LatticeSpec Lattice LatticeProofs Evolve EvolveSpec EvolveProofs EvolveStatic DynRun TopoRun DemoNets PropRestricted NetMult.
Open Scope string_scope.
Open Scope list_scope.
Open Scope nat_scope.

(** ** Specification *)
Section Spec.
  Context {L V : Type} `{EqD L}.
  Notation network := (network L V).

  (** [within n S0 k v]: [v] is at most [k] edges of [n] away from a node that is active in [S0] *)
  Inductive within (n : network) (S0 : dict L Z) : nat -> L -> Prop :=
  | within_source v : dget S0 v = Some 1%Z -> within n S0 0 v
  | within_wait k v : within n S0 k v -> within n S0 (S k) v
  | within_step k u v : within n S0 k u -> links n u v <> 0 -> within n S0 (S k) v.

  (** is the node active *)
  Definition lit (S : dict L Z) (v : L) : bool := match dget S v with Some a => (a =? 1)%Z | None => false end.
  (** the edges from [x] to [y] that are left when those with two active ends are gone *)
  Definition left_of (n : network) (S : dict L Z) (x y : L) : nat := if lit S x && lit S y then 0 else links n x y.
End Spec.

Section Proofs.
  Context {L V : Type} `{EqD L}.
  Notation network := (network L V).
  Notation graph := (graph L V).

  Lemma remove_edge_missing (n : network) g i j : R n g -> mult g i j = 0 -> remove_edge i j n = (n, Err KeyError).
  Proof.
    intros HR Hm. assert (Eb : between g i j = []) by (unfold mult in Hm; destruct (between g i j); [reflexivity|discriminate]).
    unfold remove_edge, mbind, lookup. destruct HR as [En Hok]. rewrite En, dget_repr.
    destruct (dget (g_nodes g) j) as [b|]; cbn; [|reflexivity].
    rewrite dget_inc_of'. change (betw (g_edges g) i j) with (between g i j). rewrite Eb. reflexivity.
  Qed.

  Definition pairs (es : list (L * L * dict string V)) (x y : L) : nat := length (filter (fun e => eqb (src e) x && eqb (tgt e) y) es).

  Section Cut.
    Context (S : dict L Z).
    Notation has e := ((exists a, dget S (src e) = Some a) /\ (exists b, dget S (tgt e) = Some b)).

    Lemma cut_one_off e (n : network) : has e -> lit S (src e) && lit S (tgt e) = false -> cut_one S e n = (n, Ok tt).
    Proof.
      destruct e as [[i j] d]. unfold src, tgt, lit, cut_one. cbn [fst snd]. intros [[a ->] [b ->]] E. rewrite E. reflexivity.
    Qed.
    Lemma cut_one_on e (n : network) : lit S (src e) && lit S (tgt e) = true -> cut_one S e n = remove_edge (src e) (tgt e) n.
    Proof.
      destruct e as [[i j] d]. unfold src, tgt, lit, cut_one. cbn [fst snd]. destruct (dget S i), (dget S j); try discriminate; [|rewrite andb_false_r; discriminate]. intros ->. reflexivity.
    Qed.

    Lemma pairs_cons e es x y : pairs (e :: es) x y = (if eqb (src e) x && eqb (tgt e) y then 1 else 0) + pairs es x y.
    Proof. unfold pairs. cbn [filter]. destruct (eqb (src e) x && eqb (tgt e) y); reflexivity. Qed.

    Lemma cut_all_R es : (forall e, In e es -> has e) -> (forall x y, lit S x && lit S y = true -> pairs es x y <= 1) ->
      forall (n : network) g, R n g -> (forall x y, lit S x && lit S y = true -> pairs es x y <= mult g x y) ->
      exists n' g', mfor es (cut_one S) n = (n', Ok tt) /\ R n' g' /\ net_rot n' = net_rot n /\ labels g' = labels g /\
        forall x y, mult g' x y = if lit S x && lit S y && negb (pairs es x y =? 0) then 0 else mult g x y.
    Proof.
      induction es as [|e es IH]; intros Hs Hp n g HR Hm.
      - exists n, g. split; [reflexivity|]. split; [assumption|]. split; [reflexivity|]. split; [reflexivity|]. intros x y. rewrite andb_false_r. reflexivity.
      - cbn [mfor]. assert (Hs' : forall e, In e es -> has e) by (intros; apply Hs; right; assumption).
        assert (Hp' : forall x y, lit S x && lit S y = true -> pairs es x y <= 1) by (intros x y E; specialize (Hp x y E); rewrite pairs_cons in Hp; lia).
        destruct (lit S (src e) && lit S (tgt e)) eqn:El.
        + assert (E1 := Hp _ _ El). assert (E2 := Hm _ _ El). rewrite pairs_cons, !eqb_refl in E1, E2. cbn [andb] in E1, E2.
          destruct (remove_edge_R n g (src e) (tgt e) HR) as (n1 & Er & R1 & Q1); [apply mult_edge; lia|].
          destruct (IH Hs' Hp' n1 (spec_remove_edge g (src e) (tgt e)) R1) as (n2 & g2 & E & R2 & Q2 & L2 & M2).
          { intros x y Exy. rewrite mult_remove_edge. specialize (Hm x y Exy). rewrite pairs_cons in Hm. destruct (eqb_spec x (src e)) as [->|]; [destruct (eqb_spec y (tgt e)) as [->|]|]; cbn [andb]; lia. }
          exists n2, g2. rewrite (mthen_ok _ _ n n1) by (rewrite cut_one_on by assumption; assumption). split; [assumption|]. split; [assumption|]. split; [congruence|]. split; [rewrite L2; apply labels_remove_edge|].
          intros x y. rewrite M2, mult_remove_edge, pairs_cons. rewrite (eqb_sym x (src e)), (eqb_sym y (tgt e)). destruct (eqb (src e) x && eqb (tgt e) y) eqn:Ee.
          * apply andb_prop in Ee. destruct Ee as [Ex Ey]. apply (proj1 (eqb_true _ _)) in Ex. apply (proj1 (eqb_true _ _)) in Ey. rewrite <- Ex, <- Ey, El. cbn [andb negb Nat.add Nat.eqb]. destruct (negb _); reflexivity.
          * rewrite Nat.add_0_l. reflexivity.
        + assert (Hone : cut_one S e n = (n, Ok tt)) by (apply cut_one_off; [apply Hs; left; reflexivity|assumption]).
          destruct (IH Hs' Hp' n g HR) as (n2 & g2 & E & R2 & Q2 & L2 & M2); [intros x y Exy; specialize (Hm x y Exy); rewrite pairs_cons in Hm; lia|].
          exists n2, g2. rewrite (mthen_ok _ _ _ _ Hone). split; [assumption|]. split; [assumption|]. split; [assumption|]. split; [assumption|].
          intros x y. rewrite M2, pairs_cons. destruct (eqb_spec (src e) x) as [<-|]; [destruct (eqb_spec (tgt e) y) as [<-|]|]; cbn [andb]; rewrite ?Nat.add_0_l; try reflexivity. rewrite El. reflexivity.
    Qed.

    (** a second edge between the same two active nodes has been removed with the first *)
    Lemma cut_all_bad es : (forall e, In e es -> has e) -> forall x y, lit S x && lit S y = true ->
      forall (n : network) g, R n g -> pairs es x y >= 2 \/ (pairs es x y >= 1 /\ mult g x y = 0) -> snd (mfor es (cut_one S) n) = Err KeyError.
    Proof.
      induction es as [|e es IH]; intros Hs x y Exy n g HR Hbad; [cbn in Hbad; lia|]. cbn [mfor]. rewrite !pairs_cons in Hbad.
      assert (Hs' : forall e, In e es -> has e) by (intros; apply Hs; right; assumption).
      destruct (lit S (src e) && lit S (tgt e)) eqn:El.
      - destruct (Nat.eq_dec (mult g (src e) (tgt e)) 0) as [Ez|Ez].
        + unfold mthen, mbind. rewrite cut_one_on, (remove_edge_missing n g _ _ HR Ez) by assumption. reflexivity.
        + destruct (remove_edge_R n g (src e) (tgt e) HR) as (n1 & Er & R1 & Q1); [apply mult_edge; lia|].
          rewrite (mthen_ok _ _ n n1) by (rewrite cut_one_on by assumption; assumption). apply (IH Hs' x y Exy n1 _ R1). rewrite mult_remove_edge, (eqb_sym x (src e)), (eqb_sym y (tgt e)).
          revert Hbad. destruct (eqb_spec (src e) x) as [<-|]; [destruct (eqb_spec (tgt e) y) as [<-|]|]; cbn [andb]; intros Hbad; [right; split; [|reflexivity]| |]; lia.
      - assert (Hone : cut_one S e n = (n, Ok tt)) by (apply cut_one_off; [apply Hs; left; reflexivity|assumption]).
        rewrite (mthen_ok _ _ _ _ Hone). apply (IH Hs' x y Exy n g HR). destruct (eqb_spec (src e) x) as [<-|]; [destruct (eqb_spec (tgt e) y) as [<-|]|]; cbn [andb] in Hbad; try lia. congruence.
    Qed.
  End Cut.

  Lemma keeps_cut S es : keeps (mfor es (cut_one (V:=V) S)).
  Proof.
    apply keeps_mfor. intros e _ n Hn. unfold cut_one. destruct (dget S (fst (fst e))); [|exact Hn]. destruct (dget S (snd (fst e))); [|exact Hn]. destruct (_ && _); [|exact Hn]. exact (keeps_op (OpRemoveEdge _ _) n Hn).
  Qed.

  Lemma covers_edges (n : network) (S : dict L Z) : reachable n -> covers n S -> forall e, In e (edges n) -> (exists a, dget S (src e) = Some a) /\ (exists b, dget S (tgt e) = Some b).
  Proof.
    intros Hr Hc e He. destruct (links_nodes n (src e) (tgt e) Hr) as [H1 H2]; [|split; apply Hc; assumption].
    unfold links. destruct (filter _ _) eqn:E; [|discriminate]. exfalso. assert (Hin : In e (filter (fun e0 => eqb (src e0) (src e) && eqb (tgt e0) (tgt e)) (edges n))) by (apply filter_In; rewrite !eqb_refl; auto). rewrite E in Hin. contradiction.
  Qed.

  (** One application of the topology rule: it removes exactly the edges with two active ends, provided none of these is doubled; otherwise it raises KeyError. *)
  Theorem C91_cut : forall (n : network) (S : dict L Z) t, reachable n -> covers n S ->
    ((forall x y, lit S x = true -> lit S y = true -> links n x y <= 1) ->
       exists n', cut_rule n S t = Ok n' /\ reachable n' /\ nodes n' = nodes n /\ net_rot n' = None /\ forall x y, links n' x y = left_of n S x y) /\
    ((exists x y, lit S x = true /\ lit S y = true /\ links n x y >= 2) -> cut_rule n S t = Err KeyError).
  Proof.
    intros n S t Hr Hc. destruct (reachable_R n Hr) as [g HR]. assert (HRc := copy_R n g HR). assert (Hs := covers_edges n S Hr Hc).
    split.
    - intros Hl. destruct (cut_all_R S (edges n) Hs) with (n := copy n) (g := g) as (n' & g' & E & R' & Q & Lb & M).
      + intros x y E. apply andb_prop in E. destruct E. apply Hl; assumption.
      + assumption.
      + intros x y _. change (pairs (edges n) x y) with (links n x y). rewrite (links_R n g x y HR). lia.
      + exists n'. split; [unfold cut_rule; rewrite E; reflexivity|]. split; [|split; [|split; [exact Q|]]].
        * assert (Hk := keeps_cut S (edges n) (copy n) (keeps_copy n Hr)). rewrite E in Hk. exact Hk.
        * rewrite (labels_R n' g' R'), Lb. symmetry. apply labels_R. assumption.
        * intros x y. rewrite (links_R n' g' x y R'), M. unfold left_of. change (pairs (edges n) x y) with (links n x y). rewrite (links_R n g x y HR).
          destruct (lit S x && lit S y); cbn [andb]; [|reflexivity]. destruct (Nat.eqb_spec (mult g x y) 0); cbn [negb]; congruence.
    - intros (x & y & Hx & Hy & Hxy). unfold cut_rule, result_of. assert (E := cut_all_bad S (edges n) Hs x y (andb_true_intro (conj Hx Hy)) (copy n) g HRc (or_introl Hxy)).
      destruct (mfor (edges n) (cut_one S) (copy n)) as [n' r]. cbn [snd] in E. rewrite E. reflexivity.
  Qed.

  Lemma closed_R (n : network) : reachable n -> net_rot n = None -> closed n.
  Proof.
    intros Hr Hrot v Hv. destruct (reachable_R n Hr) as [g HR]. assert (Ei := in_edges_R n g v HR).
    assert (Hb : is_nodeb g v = true) by (apply is_nodeb_true; rewrite (labels_R n g HR) in Hv; exact Hv). rewrite Hb in Ei.
    eexists _, (in_neighbours g v). split; [exact Ei|]. split.
    - unfold nbrs_of. rewrite Hrot. eexists. split; [exact Ei|]. rewrite map_map. symmetry. apply map_id.
    - intros u Hu. apply in_neighbours_mult in Hu. rewrite <- (links_R n g u v HR) in Hu. apply (links_nodes n u v Hr Hu).
  Qed.
  Lemma nbrs_links (n : network) v l u : reachable n -> net_rot n = None -> nbrs_of n v l -> (In u l <-> links n u v <> 0).
  Proof.
    intros Hr Hrot Hn. unfold nbrs_of in Hn. rewrite Hrot in Hn. destruct Hn as (inc & Ei & ->). destruct (reachable_R n Hr) as [g HR]. rewrite (in_edges_R n g v HR) in Ei.
    destruct (is_nodeb g v); [|discriminate]. injection Ei as <-. rewrite map_map. cbn [fst]. rewrite map_id, in_neighbours_mult, (links_R n g u v HR). reflexivity.
  Qed.

  Lemma within_0 (n : network) S0 v : within n S0 0 v <-> dget S0 v = Some 1%Z.
  Proof. split; [inversion 1; assumption|constructor; assumption]. Qed.
  Lemma within_S (n : network) S0 k v : within n S0 (S k) v <-> within n S0 k v \/ exists u, within n S0 k u /\ links n u v <> 0.
  Proof. split; [inversion 1; eauto|]. intros [Hw|(u & Hw & Hl)]; [apply within_wait; assumption|exact (within_step _ _ _ _ _ Hw Hl)]. Qed.
  Lemma within_mono (n : network) S0 k j v : k <= j -> within n S0 k v -> within n S0 j v.
  Proof. induction 1; [auto|]. intros Hw. apply within_wait. auto. Qed.

  (** the sum of 0s and 1s is positive when a 1 is among them *)
  Lemma zsum_bits (S : dict L Z) us xs : Forall2 (fun w a => dget S w = Some a) us xs -> (forall u, In u us -> dget S u = Some 0%Z \/ dget S u = Some 1%Z) ->
    ((0 <? zsum xs)%Z = true <-> exists u, In u us /\ dget S u = Some 1%Z) /\ (0 <= zsum xs)%Z.
  Proof.
    induction 1 as [|u a us xs Hu _ IH]; intros Hb.
    - split; [|reflexivity]. split; [discriminate|]. intros (u & [] & _).
    - destruct IH as [IH Hp]; [intros; apply Hb; right; assumption|]. change (zsum (a :: xs)) with (a + zsum xs)%Z.
      destruct (Hb u (or_introl eq_refl)) as [E|E]; rewrite Hu in E; injection E as ->.
      + split; [|lia]. rewrite Z.add_0_l, IH. split; intros (w & Hw & Ew); [exists w; split; [right|]; assumption|]. destruct Hw as [<-|Hw]; [congruence|eauto].
      + split; [|lia]. rewrite Z.ltb_lt. split; [intros _; exists u; split; [left; reflexivity|assumption]|lia].
  Qed.

  (** The run of the demo's rules on any network without rotation systems or doubled reachable edges, from any activities in {0,1}:
      after [k] steps the active nodes are those at most [k] edges away from the sources, along the edges of the original network, and
      (from the first step on) the edges that are left are exactly those whose ends are not both active. *)
  Theorem C91_run : forall {U I BA BN} (W : env L V Z BA BN) fuel (g : @args L V Z U I) u0 (n : network) c T,
    acts_first g signal_rule cut_rule -> (1 <= T)%Z -> Z.to_nat T <= fuel ->
    reachable n -> net_rot n = None -> nodes n <> [] -> length (to_dict W c) = net_len n ->
    (forall v, In v (nodes n) -> dget (to_dict W c) v = Some 0%Z \/ dget (to_dict W c) v = Some 1%Z) ->
    (forall x y, within n (to_dict W c) (Z.to_nat T - 1) x -> within n (to_dict W c) (Z.to_nat T - 1) y -> links n x y <= 1) ->
    exists traj hs, evolve W fuel u0 n (Some c) (Some T) None g = Ok (u0, traj) /\ Z.of_nat (length hs) = T /\
      Forall2 (fun s Sm => activities W s = Ok (shown_acts (fst Sm)) /\ state_network W s = Ok (shown_net (snd Sm))) traj hs /\
      nth_error hs 0 = Some (to_dict W c, n) /\
      forall k S m, nth_error hs k = Some (S, m) -> reachable m /\ nodes m = nodes n /\
        (forall v, In v (nodes n) -> (within n (to_dict W c) k v /\ dget S v = Some 1%Z) \/ (~ within n (to_dict W c) k v /\ dget S v = Some 0%Z)) /\
        (forall x y, 1 <= k -> within n (to_dict W c) k x -> within n (to_dict W c) k y -> links m x y = 0) /\
        (forall x y, k = 0 \/ ~ within n (to_dict W c) k x \/ ~ within n (to_dict W c) k y -> links m x y = links n x y).
  Proof.
    intros U I BA BN W fuel g u0 n c T Hg HT Hfuel Hr Hrot Hne Hlen Hbits Hone. set (S0 := to_dict W c) in *.
    set (Q := fun (k : nat) (S : dict L Z) => forall v, In v (nodes n) -> (within n S0 k v /\ dget S v = Some 1%Z) \/ (~ within n S0 k v /\ dget S v = Some 0%Z)).
    destruct (dyn_run W fuel u0 n c T g signal_rule cut_rule
      (fun k S m => reachable m /\ net_rot m = None /\ nodes m = nodes n /\ Q k S /\ forall x y, links m x y = if k =? 0 then links n x y else left_of n S x y) Hg HT Hfuel Hlen)
      as (traj & hs & E & Hl & Hf & H0 & HP).
    - split; [assumption|]. split; [assumption|]. split; [reflexivity|]. split; [|reflexivity].
      intros v Hv. fold S0. rewrite within_0. destruct (Hbits v Hv) as [E|E]; [right|left]; rewrite E; split; congruence.
    - intros k S m Hk (Hrm & Hrotm & Hnm & HQ & Hlm).
      assert (Hcov : covers m S) by (intros v Hv; rewrite Hnm in Hv; destruct (HQ v Hv) as [[_ E]|[_ E]]; eauto).
      destruct (reachable_R m Hrm) as [gm HRm].
      split; [exact (R_NoDup _ _ HRm)|]. split; [apply closed_R; assumption|]. split; [assumption|]. split; [intros v x _ _; eexists; reflexivity|].
      intros S' Hcov' [Hkeys Hupd].
      assert (HQ' : Q (Datatypes.S k) S').
      { intros v Hv. destruct (Hupd v) as (x & a & a' & Hx & Ha & -> & Ea); [rewrite Hnm; assumption|]. unfold signal_rule in Ha. injection Ha as <-.
        destruct (zsum_bits S (x_nbrs x) (x_nacts x) (cf_nacts _ _ _ _ _ _ _ _ Hx)) as [Hsum _].
        { intros u Hu. apply (nbrs_links m v) in Hu; [|assumption|assumption|exact (cf_nbrs _ _ _ _ _ _ _ _ Hx)]. apply (links_nodes m u v Hrm) in Hu. destruct Hu as [Hu _]. rewrite Hnm in Hu. destruct (HQ u Hu) as [[_ E]|[_ E]]; auto. }
        assert (Hcur := cf_cur _ _ _ _ _ _ _ _ Hx). rewrite within_S, Ea. destruct (HQ v Hv) as [[Hw Ev]|[Hw Ev]]; rewrite Ev in Hcur; injection Hcur as Hcur.
        - left. split; [auto|]. rewrite <- Hcur. destruct (0 <? zsum (x_nacts x))%Z; reflexivity.
        - assert (Hiff : (exists u, In u (x_nbrs x) /\ dget S u = Some 1%Z) <-> exists u, within n S0 k u /\ links n u v <> 0).
          { split; intros (u & H1 & H2); exists u.
            - apply (nbrs_links m v) in H1; [|assumption|assumption|exact (cf_nbrs _ _ _ _ _ _ _ _ Hx)].
              assert (Hu := proj1 (links_nodes m u v Hrm H1)). rewrite Hnm in Hu. split.
              + destruct (HQ u Hu) as [[Hwu _]|[_ E]]; [assumption|congruence].
              + rewrite Hlm in H1. destruct (k =? 0); [assumption|]. unfold left_of in H1. destruct (lit S u && lit S v); [contradiction|assumption].
            - assert (Hu := proj1 (links_nodes n u v Hr H2)). split.
              + apply (nbrs_links m v); [assumption|assumption|exact (cf_nbrs _ _ _ _ _ _ _ _ Hx)|]. rewrite Hlm. destruct (k =? 0); [assumption|]. unfold left_of, lit. rewrite Ev, andb_false_r. assumption.
              + destruct (HQ u Hu) as [[_ E]|[Hnu _]]; [assumption|contradiction]. }
          rewrite Hiff in Hsum. destruct (0 <? zsum (x_nacts x))%Z.
          + left. split; [right; apply Hsum; reflexivity|reflexivity].
          + right. split; [intros [Hw'|Hw']; [contradiction|]; apply Hsum in Hw'; discriminate|]. rewrite <- Hcur. reflexivity. }
      assert (Hlit : forall v, lit S' v = true -> In v (nodes n) /\ within n S0 (Datatypes.S k) v).
      { intros v Hv. unfold lit in Hv. destruct (dget S' v) as [a|] eqn:Ea; [|discriminate]. assert (Hin : In v (nodes n)) by (rewrite <- Hnm, <- Hkeys; apply (dget_some_key S' v a); assumption).
        split; [assumption|]. destruct (HQ' v Hin) as [[Hw _]|[_ E]]; [assumption|]. rewrite E in Ea. injection Ea as <-. discriminate. }
      assert (Hlem : forall x y, links m x y <= links n x y) by (intros x y; rewrite Hlm; destruct (k =? 0); [lia|]; unfold left_of; destruct (lit S x && lit S y); lia).
      assert (Hgiven : reachable (given g m) /\ covers (given g m) S' /\ nodes (given g m) = nodes m /\ forall x y, links (given g m) x y = links m x y).
      { unfold given. destruct (g_copy g); [|auto]. split; [apply keeps_copy; assumption|]. split; [exact Hcov'|]. split; reflexivity. }
      destruct Hgiven as (Gr & Gc & Gn & Gl).
      destruct (C91_cut (given g m) S' (Z.of_nat k + 1)%Z Gr Gc) as [Hcut _].
      destruct Hcut as (m' & Ecut & Hrm' & Hnm' & Hrotm' & Hlm').
      { intros x y Hx Hy. rewrite Gl. specialize (Hlem x y). apply Hlit in Hx, Hy. assert (Hw : Datatypes.S k <= Z.to_nat T - 1) by lia. specialize (Hone x y (within_mono _ _ _ _ _ Hw (proj2 Hx)) (within_mono _ _ _ _ _ Hw (proj2 Hy))). lia. }
      exists m'. split; [assumption|]. assert (En : nodes m' = nodes n) by congruence. split; [intros E; apply Hne; rewrite <- En; unfold nodes; rewrite E; reflexivity|].
      split; [assumption|]. split; [assumption|]. split; [assumption|]. split; [assumption|].
      intros x y. rewrite Hlm'. unfold left_of. rewrite Gl. change (Datatypes.S k =? 0) with false. cbv iota. destruct (lit S' x && lit S' y) eqn:El; [reflexivity|].
      rewrite Hlm. destruct (k =? 0) eqn:Ek; [reflexivity|]. unfold left_of. destruct (lit S x && lit S y) eqn:El2; [|reflexivity].
      destruct (Nat.eq_dec (links n x y) 0) as [Ez|Ez]; [congruence|]. exfalso. apply andb_prop in El2. destruct El2 as [Ex Ey].
      assert (Hup : forall v, In v (nodes n) -> lit S v = true -> lit S' v = true).
      { intros v Hin Hlv. unfold lit in *. destruct (HQ v Hin) as [[Hw _]|[_ E]]; [|rewrite E in Hlv; discriminate]. destruct (HQ' v Hin) as [[_ E]|[Hn _]]; [rewrite E; reflexivity|]. exfalso. apply Hn, within_wait, Hw. }
      apply (links_nodes n x y Hr) in Ez. destruct Ez as [Hx Hy]. rewrite (Hup x Hx Ex), (Hup y Hy Ey) in El. discriminate.
    - exists traj, hs. split; [assumption|]. split; [assumption|]. split; [assumption|]. split; [assumption|].
      intros k S m Ek. destruct (HP k S m Ek) as (Hrm & _ & Hnm & HQ & Hlm). split; [assumption|]. split; [assumption|]. split; [exact HQ|].
      assert (Hlit : forall v, In v (nodes n) -> (lit S v = true <-> within n S0 k v)).
      { intros v Hv. unfold lit. destruct (HQ v Hv) as [[Hw ->]|[Hw ->]]; cbn; split; intros; solve [reflexivity|discriminate|assumption|contradiction]. }
      split; intros x y.
      + intros Hk Hx Hy. rewrite Hlm. destruct k as [|k]; [lia|]. cbn [Nat.eqb]. unfold left_of. destruct (Nat.eq_dec (links n x y) 0) as [Ez|Ez]; [rewrite Ez; destruct (_ && _); reflexivity|].
        apply (links_nodes n x y Hr) in Ez. destruct Ez as [H1 H2]. rewrite (proj2 (Hlit x H1) Hx), (proj2 (Hlit y H2) Hy). reflexivity.
      + intros Hk. rewrite Hlm. destruct (Nat.eqb_spec k 0) as [Ez|Ez]; [reflexivity|]. unfold left_of. destruct (Nat.eq_dec (links n x y) 0) as [El|El]; [rewrite El; destruct (_ && _); reflexivity|].
        apply (links_nodes n x y Hr) in El. destruct El as [H1 H2]. destruct (lit S x) eqn:E1; [|reflexivity]. destruct (lit S y) eqn:E2; [|reflexivity].
        apply (Hlit x H1) in E1. apply (Hlit y H2) in E2. destruct Hk as [Hk|[Hk|Hk]]; contradiction.
  Qed.
End Proofs.

(** ** on a lattice *)

(** adjacent points of a lattice that is not periodic differ by one in the sum of their coordinates *)
Lemma zsum_change l l' i a b : nth_error l i = Some a -> nth_error l' i = Some b -> (forall j, j <> i -> nth_error l j = nth_error l' j) -> (zsum l' = zsum l - a + b)%Z.
Proof.
  revert l' i. induction l as [|x l IH]; intros l' i E1 E2 Hj; [destruct i; discriminate|]. destruct l' as [|y l']; [destruct i; discriminate|].
  change (zsum (x :: l)) with (x + zsum l)%Z. change (zsum (y :: l')) with (y + zsum l')%Z. destruct i as [|i]; cbn [nth_error] in E1, E2.
  - injection E1 as ->. injection E2 as ->. assert (l = l') by (apply nth_ext_eq; intros j; exact (Hj (S j) ltac:(lia))). subst. lia.
  - assert (Exy := Hj 0 ltac:(lia)). injection Exy as ->. rewrite (IH l' i E1 E2); [lia|]. intros j Hji. exact (Hj (S j) ltac:(lia)).
Qed.
Lemma adjacent_sum dim u v : adjacent false dim u v -> (zsum (coords dim v) = zsum (coords dim u) + 1 \/ zsum (coords dim v) = zsum (coords dim u) - 1)%Z.
Proof.
  intros (i & d & a & b & _ & Ea & Eb & Hj & Hr). rewrite (zsum_change _ _ i a b Ea Eb Hr). unfold joined in Hj. destruct Hj as [->|[->|[Hj _]]]; [lia|lia|discriminate].
Qed.
Lemma coords_range dim v : Forall (fun d => 0 < d)%Z dim -> Forall2 (fun d c => 0 <= c < d)%Z dim (coords dim v).
Proof. intros Hp. revert v. induction Hp as [|d ds Hd _ IH]; intros v; cbn [coords]; constructor; [apply Z.mod_pos_bound; assumption|apply IH]. Qed.
Lemma coords_sum dim v : Forall (fun d => 0 < d)%Z dim -> (0 <= zsum (coords dim v) <= zsum dim - Z.of_nat (length dim))%Z.
Proof.
  intros Hp. assert (Hf := coords_range dim v Hp). clear Hp. induction Hf as [|d c ds cs Hc _ IH]; [cbn; lia|].
  change (zsum (c :: cs)) with (c + zsum cs)%Z. change (zsum (d :: ds)) with (d + zsum ds)%Z. cbn [length]. lia.
Qed.
(** a point other than the origin has an adjacent point nearer to it *)
Lemma descend dim : Forall (fun d => 0 < d)%Z dim -> forall v, (0 <= v < volume dim)%Z -> (0 < zsum (coords dim v))%Z ->
  exists u, (0 <= u < volume dim)%Z /\ adjacent false dim u v /\ (zsum (coords dim u) = zsum (coords dim v) - 1)%Z.
Proof.
  induction 1 as [|d ds Hd Hds IH]; intros v Hv Hs; [cbn in Hs; lia|]. cbn [volume] in Hv. cbn [coords] in Hs. change (zsum (v mod d :: coords ds (v / d)))%Z with (v mod d + zsum (coords ds (v / d)))%Z in Hs.
  assert (Hm := Z.mod_pos_bound v d Hd). assert (Hdm := Z.div_mod v d ltac:(lia)).
  destruct (Z.eq_dec (v mod d) 0) as [Ez|Ez].
  - destruct (IH (v / d)%Z) as (u & Hu & Ha & Hz); [split; [apply Z.div_pos; lia|apply Z.div_lt_upper_bound; lia]|lia|]. exists (u * d)%Z.
    assert (Ec : coords (d :: ds) (u * d) = 0%Z :: coords ds u) by (cbn [coords]; rewrite Z.mod_mul, Z.div_mul by lia; reflexivity).
    assert (Ev : coords (d :: ds) v = 0%Z :: coords ds (v / d)) by (cbn [coords]; rewrite Ez; reflexivity).
    split; [cbn [volume]; nia|]. split; [|rewrite Ec, Ev; change (0 + zsum (coords ds u) = 0 + zsum (coords ds (v / d)) - 1)%Z; lia].
    destruct Ha as (i & d' & a & b & H1 & H2 & H3 & H4 & H5). exists (S i), d', a, b. rewrite Ec, Ev. split; [assumption|]. split; [assumption|]. split; [assumption|]. split; [assumption|].
    intros [|j] Hj; [reflexivity|]. cbn [nth_error]. apply H5. lia.
  - assert (Ed : ((v - 1) / d = v / d)%Z) by (symmetry; apply (Z.div_unique _ _ _ (v mod d - 1)); lia). assert (Em : ((v - 1) mod d = v mod d - 1)%Z) by (rewrite Z.mod_eq, Ed by lia; lia).
    exists (v - 1)%Z. assert (Ec : coords (d :: ds) (v - 1) = (v mod d - 1)%Z :: coords ds (v / d)) by (cbn [coords]; rewrite Ed, Em; reflexivity).
    split; [cbn [volume]; split; [|lia]; assert (0 <= v / d)%Z by (apply Z.div_pos; lia); nia|]. split.
    + exists 0, d, (v mod d - 1)%Z, (v mod d)%Z. rewrite Ec. cbn [coords nth_error]. split; [reflexivity|]. split; [reflexivity|]. split; [reflexivity|]. split; [left; lia|].
      intros [|j] Hj; [congruence|reflexivity].
    + rewrite Ec. change (zsum ((v mod d - 1)%Z :: coords ds (v / d))) with (v mod d - 1 + zsum (coords ds (v / d)))%Z. cbn [coords]. change (zsum ((v mod d)%Z :: coords ds (v / d))) with (v mod d + zsum (coords ds (v / d)))%Z. lia.
Qed.
Lemma coords_0 dim : zsum (coords dim 0) = 0%Z.
Proof. induction dim as [|d ds IH]; [reflexivity|]. cbn [coords]. rewrite Zmod_0_l, Zdiv_0_l. exact IH. Qed.
Lemma coords_sum_0 dim v : Forall (fun d => 0 < d)%Z dim -> (0 <= v < volume dim)%Z -> zsum (coords dim v) = 0%Z -> v = 0%Z.
Proof.
  intros Hp Hv Hs. revert v Hv Hs. induction Hp as [|d ds Hd Hds IH]; intros v Hv Hs; [cbn in Hv; lia|]. cbn [volume] in Hv. cbn [coords] in Hs. change (zsum (v mod d :: coords ds (v / d)))%Z with (v mod d + zsum (coords ds (v / d)))%Z in Hs.
  assert (Hm := Z.mod_pos_bound v d Hd). assert (H2 := coords_sum ds (v / d) Hds). assert (Hdm := Z.div_mod v d ltac:(lia)). assert (E : (v / d = 0)%Z); [|rewrite E in Hdm; lia].
  apply IH; [split; [apply Z.div_pos; lia|apply Z.div_lt_upper_bound; lia]|lia].
Qed.

Lemma adjacent_dec dim u v : adjacent false dim u v \/ ~ adjacent false dim u v.
Proof.
  revert u v. induction dim as [|d ds IH]; intros u v; [right; intros (i & d & a & b & E & _); destruct i; discriminate|].
  destruct (Z.eq_dec (v mod d) (u mod d)) as [Em|Em].
  - destruct (IH (u / d)%Z (v / d)%Z) as [Ha|Ha].
    + left. destruct Ha as (i & d' & a & b & H1 & H2 & H3 & H4 & H5). exists (S i), d', a, b. cbn [coords nth_error]. split; [assumption|]. split; [assumption|]. split; [assumption|]. split; [assumption|].
      intros [|j] Hj; cbn [nth_error]; [congruence|]. apply H5. lia.
    + right. intros (i & d' & a & b & H1 & H2 & H3 & H4 & H5). cbn [coords] in *. destruct i as [|i]; cbn [nth_error] in H1, H2, H3.
      * injection H2 as <-. injection H3 as <-. unfold joined in H4. destruct H4 as [H4|[H4|[H4 _]]]; [lia|lia|discriminate].
      * apply Ha. exists i, d', a, b. split; [assumption|]. split; [assumption|]. split; [assumption|]. split; [assumption|]. intros j Hj. exact (H5 (S j) ltac:(lia)).
  - assert (Hj : (v mod d = u mod d + 1 \/ u mod d = v mod d + 1)%Z \/ ~ (v mod d = u mod d + 1 \/ u mod d = v mod d + 1)%Z) by lia.
    destruct Hj as [Hj|Hj]; [destruct (list_eq_dec Z.eq_dec (coords ds (u / d)) (coords ds (v / d))) as [Ec|Ec]|].
    + left. exists 0, d, (u mod d)%Z, (v mod d)%Z. cbn [coords nth_error]. split; [reflexivity|]. split; [reflexivity|]. split; [reflexivity|]. split; [unfold joined; tauto|].
      intros [|j] Hj'; [congruence|]. cbn [nth_error]. rewrite Ec. reflexivity.
    + right. intros (i & d' & a & b & H1 & H2 & H3 & H4 & H5). cbn [coords] in *. destruct i as [|i]; cbn [nth_error] in H1, H2, H3; [|specialize (H5 0 ltac:(lia)); cbn in H5; congruence].
      apply Ec, nth_ext_eq. intros j. exact (H5 (S j) ltac:(lia)).
    + right. intros (i & d' & a & b & H1 & H2 & H3 & H4 & H5). cbn [coords] in *. destruct i as [|i]; cbn [nth_error] in H1, H2, H3; [|specialize (H5 0 ltac:(lia)); cbn in H5; congruence].
      injection H2 as <-. injection H3 as <-. unfold joined in H4. destruct H4 as [H4|[H4|[H4 _]]]; [tauto|tauto|discriminate].
Qed.

Lemma lattice_links {V} dim loops first (n : network Z V) : dim <> [] -> Forall (fun d => 0 < d)%Z dim -> lattice dim false loops first = Ok n ->
  net_rot n = None /\ (forall v, In v (nodes n) -> (first <= v < first + volume dim)%Z) /\ (forall u v, links n u v <= 1) /\
  forall u v, links n u v <> 0 <-> (first <= u < first + volume dim)%Z /\ (first <= v < first + volume dim)%Z /\ adjacent false dim (u - first) (v - first).
Proof.
  intros Hne Hp E. destruct (lattice_spec (V:=V) dim false loops first Hne Hp) as (net & E' & Hrot & [g HR] & Hn & _ & Hb). rewrite E in E'. injection E' as <-.
  assert (Hr := lattice_reachable dim false loops first n E).
  assert (Hin : forall v, In v (nodes n) -> (first <= v < first + volume dim)%Z) by (intros v Hv; apply Hn in Hv; destruct Hv as (u & w & Hu & Hw & [->| ->] & _); assumption).
  assert (Hself : forall u v, adjacent false dim (u - first) (v - first) -> u <> v) by (intros u v Ha ->; apply adjacent_sum in Ha; lia).
  assert (Hl : forall u v, (links n u v = 0 /\ edge n u v = Err KeyError) \/ (exists l, edge n u v = Ok l /\ links n u v = length l /\ l <> [])).
  { intros u v. rewrite (edge_R n g u v HR), (links_R n g u v HR). unfold mult. destruct (between g u v) as [|x l]; [left; split; reflexivity|right; exists (x :: l); split; [reflexivity|split; [reflexivity|discriminate]]]. }
  assert (Hlr : forall u v, links n u v <> 0 -> (first <= u < first + volume dim)%Z /\ (first <= v < first + volume dim)%Z) by (intros u v Huv; apply (links_nodes n u v Hr) in Huv; destruct Huv; split; apply Hin; assumption).
  assert (Hd : forall u v, (first <= u < first + volume dim)%Z -> (first <= v < first + volume dim)%Z -> adjacent false dim (u - first) (v - first) \/ edge n u v = Err KeyError).
  { intros u v Hu Hv. destruct (Hl u v) as [[_ El]|(l & El & _ & Hl2)]; [right; assumption|]. left. destruct (Hb u v Hu Hv) as (_ & _ & H3).
    assert (Hdec : adjacent false dim (u - first) (v - first) \/ ~ adjacent false dim (u - first) (v - first)) by apply adjacent_dec.
    destruct Hdec as [Ha|Ha]; [assumption|]. rewrite (H3 (or_introl Ha)) in El. discriminate. }
  split; [assumption|]. split; [assumption|]. split.
  - intros u v. destruct (Nat.eq_dec (links n u v) 0) as [Ez|Ez]; [lia|]. destruct (Hlr u v Ez) as [Hu Hv]. destruct (Hd u v Hu Hv) as [Ha|Ee].
    + destruct (Hb u v Hu Hv) as (H1 & _). specialize (H1 (Hself _ _ Ha) Ha). destruct (Hl u v) as [[_ El]|(l & El & -> & _)]; [congruence|]. rewrite H1 in El. injection El as <-. reflexivity.
    + destruct (Hl u v) as [[El _]|(l & El & _)]; [lia|congruence].
  - intros u v. split.
    + intros Ez. destruct (Hlr u v Ez) as [Hu Hv]. split; [assumption|]. split; [assumption|]. destruct (Hd u v Hu Hv) as [Ha|Ee]; [assumption|]. destruct (Hl u v) as [[El _]|(l & El & _)]; [lia|congruence].
    + intros (Hu & Hv & Ha). destruct (Hb u v Hu Hv) as (H1 & _). specialize (H1 (Hself _ _ Ha) Ha). destruct (Hl u v) as [[_ El]|(l & El & -> & _)]; [congruence|]. rewrite H1 in El. injection El as <-. discriminate.
Qed.

Lemma within_lattice {V} dim loops first (n : network Z V) (S0 : dict Z Z) : dim <> [] -> Forall (fun d => 0 < d)%Z dim -> lattice dim false loops first = Ok n ->
  dget S0 first = Some 1%Z -> (forall v, (first < v < first + volume dim)%Z -> dget S0 v = Some 0%Z) ->
  forall k v, (first <= v < first + volume dim)%Z -> (within n S0 k v <-> (zsum (coords dim (v - first)) <= Z.of_nat k)%Z).
Proof.
  intros Hne Hp E H1 H0. destruct (lattice_links dim loops first n Hne Hp E) as (_ & _ & _ & Hl). induction k as [|k IH]; intros v Hv.
  - rewrite within_0. assert (Hs := coords_sum dim (v - first) Hp). split.
    + intros Ev. destruct (Z.eq_dec v first) as [->|Hne']; [rewrite Z.sub_diag, coords_0; lia|]. rewrite H0 in Ev by lia. discriminate.
    + intros Hz. assert (Ev := coords_sum_0 dim (v - first) Hp ltac:(lia) ltac:(lia)). replace v with first by lia. assumption.
  - rewrite within_S, (IH v Hv). split.
    + intros [Hz|(u & Hu & Huv)]; [lia|]. apply Hl in Huv. destruct Huv as (Hur & _ & Ha). apply (IH u Hur) in Hu. apply adjacent_sum in Ha. lia.
    + intros Hz. destruct (Z.le_gt_cases (zsum (coords dim (v - first))) (Z.of_nat k)) as [Hc|Hc]; [left; assumption|]. right.
      destruct (descend dim Hp (v - first) ltac:(lia) ltac:(lia)) as (u & Hu & Ha & Es). exists (u + first)%Z.
      assert (Hur : (first <= u + first < first + volume dim)%Z) by lia. rewrite (IH _ Hur), Hl. replace (u + first - first)%Z with u by lia. split; [lia|]. auto.
Qed.

(** The demo, on a lattice of any dimensions that does not wrap around, started from one active node at the corner with the least label:
      after [k] steps the nodes whose coordinates sum to at most [k] are active and the edges between such nodes are gone; when the sum of
      the (dimensions minus one) is reached every node is active and no edge is left. *)
Theorem C91_lattice : forall {V U I BA BN} (W : env Z V Z BA BN) fuel (g : @args Z V Z U I) u0 dim loops first (n : network Z V) c T,
  acts_first g signal_rule cut_rule -> (1 <= T)%Z -> Z.to_nat T <= fuel ->
  dim <> [] -> Forall (fun d => 0 < d)%Z dim -> lattice dim false loops first = Ok n ->
  length (to_dict W c) = net_len n -> dget (to_dict W c) first = Some 1%Z -> (forall v, (first < v < first + volume dim)%Z -> dget (to_dict W c) v = Some 0%Z) ->
  let reached (k : nat) v := (zsum (coords dim (v - first)) <=? Z.of_nat k)%Z in
  exists traj hs, evolve W fuel u0 n (Some c) (Some T) None g = Ok (u0, traj) /\ Z.of_nat (length hs) = T /\
    Forall2 (fun s Sm => activities W s = Ok (shown_acts (fst Sm)) /\ state_network W s = Ok (shown_net (snd Sm))) traj hs /\
    nth_error hs 0 = Some (to_dict W c, n) /\
    forall k S m, nth_error hs k = Some (S, m) -> nodes m = nodes n /\
      (forall v, In v (nodes n) -> dget S v = Some (if reached k v then 1 else 0)%Z) /\
      (forall x y, links m x y = if (1 <=? k) && reached k x && reached k y then 0 else links n x y) /\
      (1 <= k -> (zsum dim - Z.of_nat (length dim) <= Z.of_nat k)%Z -> edges m = [] /\ forall v, In v (nodes n) -> dget S v = Some 1%Z).
Proof.
  intros V U I BA BN W fuel g u0 dim loops first n c T Hg HT Hfuel Hne Hp E Hlen H1 H0 reached.
  destruct (lattice_links dim loops first n Hne Hp E) as (Hrot & Hin & Hone & Hl). assert (Hr := lattice_reachable dim false loops first n E).
  assert (Hw := within_lattice dim loops first n (to_dict W c) Hne Hp E H1 H0).
  assert (Hnn : nodes n <> []).
  { intros En. unfold net_len in Hlen. assert (Hz : net_nodes n = []) by (unfold nodes, dkeys in En; destruct (net_nodes n); [reflexivity|discriminate]). rewrite Hz in Hlen. destruct (to_dict W c); [discriminate H1|discriminate]. }
  destruct (C91_run W fuel g u0 n c T Hg HT Hfuel Hr Hrot Hnn Hlen) as (traj & hs & Ev & Hlh & Hf & Hz & HP).
  - intros v Hv. apply Hin in Hv. destruct (Z.eq_dec v first) as [->|Hv']; [right; assumption|left; apply H0; lia].
  - intros x y _ _. apply Hone.
  - exists traj, hs. split; [assumption|]. split; [assumption|]. split; [assumption|]. split; [assumption|]. intros k S m Ek. destruct (HP k S m Ek) as (Hrm & Hnm & Hv & Hx & Hy). split; [assumption|].
    assert (Hacts : forall v, In v (nodes n) -> dget S v = Some (if reached k v then 1 else 0)%Z).
    { intros v Hvn. assert (Hwv := Hw k v (Hin v Hvn)). unfold reached. destruct (Hv v Hvn) as [[Hk ->]|[Hk ->]]; rewrite Hwv in Hk; destruct (Z.leb_spec (zsum (coords dim (v - first))) (Z.of_nat k)); try reflexivity; lia. }
    assert (Hlinks : forall x y, links m x y = if (1 <=? k) && reached k x && reached k y then 0 else links n x y).
    { intros x y. destruct (Nat.eq_dec (links n x y) 0) as [Ez|Ez].
      - rewrite Ez. transitivity 0; [|destruct (_ && _ && _); reflexivity]. destruct (Nat.eq_dec (links m x y) 0) as [Em|Em]; [assumption|]. exfalso.
        destruct k as [|k]; [apply Em; rewrite <- Ez; apply Hy; auto|].
        assert (Hd : forall v, In v (nodes n) -> within n (to_dict W c) (Datatypes.S k) v \/ ~ within n (to_dict W c) (Datatypes.S k) v) by (intros v Hvn; rewrite (Hw _ v (Hin v Hvn)); lia).
        assert (Hmn : In x (nodes n) /\ In y (nodes n)) by (apply (links_nodes m x y Hrm) in Em; rewrite Hnm in Em; exact Em). destruct Hmn as [Hxn Hyn].
        destruct (Hd x Hxn) as [Hwx|Hwx]; [destruct (Hd y Hyn) as [Hwy|Hwy]|].
        + apply Em. apply Hx; [lia|assumption|assumption].
        + apply Em. rewrite <- Ez. apply Hy. auto.
        + apply Em. rewrite <- Ez. apply Hy. auto.
      - apply (links_nodes n x y Hr) in Ez. destruct Ez as [Hxn Hyn]. assert (Wx := Hw k x (Hin x Hxn)). assert (Wy := Hw k y (Hin y Hyn)). unfold reached.
        destruct k as [|k]; [apply Hy; auto|]. cbn [Nat.leb andb].
        destruct (Z.leb_spec (zsum (coords dim (x - first))) (Z.of_nat (Datatypes.S k))); [destruct (Z.leb_spec (zsum (coords dim (y - first))) (Z.of_nat (Datatypes.S k)))|]; cbn [andb].
        + apply Hx; [lia|apply Wx; lia|apply Wy; lia].
        + apply Hy. right. right. rewrite Wy. lia.
        + apply Hy. right. left. rewrite Wx. lia. }
    split; [assumption|]. split; [assumption|]. intros Hk Hbig. 
    assert (Hall : forall v, reached k v = true) by (intros v; assert (Hs := coords_sum dim (v - first) Hp); apply Z.leb_le; lia). split.
    + destruct (edges m) as [|e es] eqn:Ee; [reflexivity|]. exfalso. assert (Hc := Hlinks (src e) (tgt e)). rewrite !Hall in Hc. destruct k; [lia|]. cbn in Hc. unfold links in Hc. rewrite Ee in Hc. cbn [filter] in Hc. rewrite !eqb_refl in Hc. discriminate.
    + intros v Hvn. rewrite (Hacts v Hvn), Hall. reflexivity.
Qed.

(** ** Examples *)
Definition Wf : env Z Z Z unit unit := mkEnv Z.of_nat Some (fun a => a) (fun _ => Err Unmodelled) (fun _ => Err Unmodelled) (fun _ => Err Unmodelled) (fun _ => Err Unmodelled).
Definition demo_args : @args Z Z Z unit unit := mkArgs (Some (stateless signal_rule)) (Some (pure_topo cut_rule)) None [] ACTIVITIES_FIRST true false true true false None.
(** the lattice and the initial conditions of the demo meet the hypotheses of C91_lattice *)
Example C91_hypotheses_met : acts_first demo_args signal_rule cut_rule /\ exists n : network Z Z, lattice [1; 6; 9]%Z false false 0%Z = Ok n /\
  let c := CDict (dset (map (fun v => (v, 0)%Z) (nodes n)) 0%Z 1%Z) in
  length (to_dict Wf c) = net_len n /\ dget (to_dict Wf c) 0%Z = Some 1%Z /\ (forall v, (0 < v < 0 + volume [1; 6; 9])%Z -> dget (to_dict Wf c) v = Some 0%Z) /\
  (zsum [1; 6; 9] - Z.of_nat (length [1; 6; 9]) = 13)%Z.
Proof.
  split; [repeat split|]. eexists. split; [vm_compute; reflexivity|]. cbv zeta. split; [vm_compute; reflexivity|]. split; [vm_compute; reflexivity|]. split; [|reflexivity].
  intros v Hv. change (0 + volume [1; 6; 9])%Z with 54%Z in Hv. assert (Hin : In v (zrange 1 54)) by (apply in_zrange; lia). clear Hv.
  match goal with |- dget ?d v = _ => assert (Ha : forallb (fun v => match dget d v with Some a => (a =? 0)%Z | None => false end) (zrange 1 54) = true) by (vm_compute; reflexivity) end.
  rewrite forallb_forall in Ha. specialize (Ha v Hin). destruct (dget _ v) as [a|]; [|discriminate]. apply Z.eqb_eq in Ha. congruence.
Qed.
(** a small lattice: the edges vanish behind the wave *)
Example C91_small : exists n : network Z Z, lattice [1; 2; 2]%Z false false 0%Z = Ok n /\
  match evolve Wf 4 tt n (Some (CDict [(1, 0); (0, 1); (2, 0); (3, 0)]%Z)) (Some 3%Z) None demo_args with
  | Ok (_, [_; s1; s2]) => activities Wf s1 = Ok (Some [(2, 1); (0, 1); (1, 1); (3, 0)]%Z) /\ activities Wf s2 = Ok (Some [(2, 1); (0, 1); (1, 1); (3, 1)]%Z) /\
      (match state_network Wf s1, state_network Wf s2 with Ok (Some m1), Ok (Some m2) => map fst (edges m1) = [(3, 2); (3, 1); (1, 3); (2, 3)]%Z /\ edges m2 = [] | _, _ => False end)
  | _ => False end.
Proof. eexists. split; [vm_compute; reflexivity|]. vm_compute. auto. Qed.
(** a doubled edge with two active ends: the second removal raises KeyError *)
Example C91_doubled : let n : network Z Z := fst (run_ops [OpAddEdge 0 1 []; OpAddEdge 0 1 []]%Z empty_network) in
  reachable n /\ covers n [(0, 1); (1, 1)]%Z /\ links n 0%Z 1%Z = 2 /\ cut_rule n [(0, 1); (1, 1)]%Z 1%Z = Err KeyError.
Proof. split; [eexists; reflexivity|]. split; [intros v [<-|[<-|[]]]; eexists; reflexivity|]. split; vm_compute; reflexivity. Qed.

Print Assumptions C91_cut.
Print Assumptions C91_run.
Print Assumptions C91_lattice.
