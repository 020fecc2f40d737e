(** Sandpile: a potential that each toppling lowers; runs *)
From Verif Require Import Py PyFacts ListFacts Network Topology TopologySpec TopologyProofs TopologyProofs2 TopologyProofs3 TopologyProofs4.
From Verif Require Import Evolve EvolveSpec EvolveProofs EvolveProofs2 EvolveProofs3 EvolveStatic HopfieldProofs SandpileSpec Sandpile SandpileProofs.
Open Scope string_scope.
Open Scope list_scope.
Open Scope Z_scope.

Section Pot.
  Variables (rows cols : Z).
  Hypothesis Hr : 0 < rows.
  Hypothesis Hc : 0 < cols.
  Notation N := (rows * cols).
  Notation h := (fun v : Z => v / cols * (rows - 1 - v / cols)).

  Definition pot (s : Z -> Z) : Z := zsum (map (fun v => h v * s v) (zrange 0 N)).
  Definition empty_border (s : Z -> Z) : Prop := forall v, 0 <= v < N -> border rows cols v = true -> s v = 0.
  Definition step closed (s s' : Z -> Z) : Prop := forall v, 0 <= v < N -> s' v = sand_next closed rows cols s v.

  Lemma h_nonneg v : 0 <= v < N -> 0 <= h v.
  Proof. intros Hv. destruct (cell_surj rows cols v Hc Hv) as (_ & Ha & _). cbn beta. nia. Qed.

  (** the four neighbours of an inner cell have together 4 h - 2 *)
  Lemma inner_laplacian u : 0 <= u < N -> border rows cols u = false -> zsum (map (fun v => ind (beside rows cols v u) * h v) (zrange 0 N)) = 4 * h u - 2.
  Proof.
    intros Hu Hb. destruct (cell_surj rows cols u Hc Hu) as (Eu & Ha & Hd). rewrite <- zsum_filter_ind, (zsum_map_perm _ _ _ (beside_list rows cols u Hr Hc Hu)).
    unfold border in Hb. rewrite !orb_false_iff, !Z.eqb_neq in Hb. set (a := u / cols) in *. set (b := u mod cols) in *.
    assert (Hq : forall c d, 0 <= d < cols -> (c * cols + d) / cols = c) by (intros c d Hx; rewrite Z.add_comm, Z.div_add by lia; rewrite Z.div_small by lia; lia).
    unfold axis. destruct (Z.leb_spec cols 1); [lia|]. destruct (Z.eqb_spec cols 2); [lia|]. destruct (Z.leb_spec rows 1); [lia|]. destruct (Z.eqb_spec rows 2); [lia|].
    rewrite (Z.mod_small (b + 1)), (Z.mod_small (b - 1)), (Z.mod_small (a + 1)), (Z.mod_small (a - 1)) by lia. cbn [map app zsum]. rewrite !Hq by lia. change (u / cols) with a. lia.
  Qed.

  Lemma pot_descent s s' : nonneg rows cols s -> empty_border s -> step true s s' -> pot s' + 2 * toppling rows cols s <= pot s.
  Proof.
    intros Hn Hb Hs.
    assert (H1 : pot s' <= zsum (map (fun v => h v * free_next rows cols s v) (zrange 0 N))).
    { apply zsum_le. intros v Hv. apply in_zrange in Hv. rewrite (Hs v) by lia. unfold sand_next, free_next. cbn [andb]. pose proof (received_nonneg rows cols s v). pose proof (h_nonneg v ltac:(lia)) as Hh. cbn beta in Hh. destruct (border rows cols v) eqn:Eb; [|lia].
      rewrite (Hb v ltac:(lia) Eb). cbn [Z.leb Z.compare]. nia. }
    assert (H2 : zsum (map (fun v => h v * free_next rows cols s v) (zrange 0 N)) = pot s - 2 * toppling rows cols s).
    { rewrite (zsum_ext _ (fun v => (h v * s v + h v * received rows cols s v) + (-4) * (ind (4 <=? s v) * h v))) by (intros v _; unfold free_next, ind; destruct (4 <=? s v); lia).
      rewrite !zsum_plus. pose proof (received_total rows cols s h) as E. cbn beta in E. rewrite E. fold (pot s). unfold toppling.
      rewrite (zsum_ext (fun u => ind (4 <=? s u) * _) (fun u => 4 * (ind (4 <=? s u) * h u) + (-2) * (if 4 <=? s u then 1 else 0))).
      - rewrite zsum_plus, !zsum_mul. lia.
      - intros u Hu. apply in_zrange in Hu. unfold ind at 1 3. destruct (Z.leb_spec 4 (s u)) as [Hge|]; [|lia]. assert (Hbu : border rows cols u = false) by (destruct (border rows cols u) eqn:Eb; [rewrite (Hb u ltac:(lia) Eb) in Hge; lia|reflexivity]).
        rewrite (inner_laplacian u ltac:(lia) Hbu). lia. }
    lia.
  Qed.

  Lemma step_border closed s s' : closed = true -> step closed s s' -> empty_border s'.
  Proof. intros -> Hs v Hv Hb. rewrite (Hs v Hv). unfold sand_next. rewrite Hb. reflexivity. Qed.

  Lemma step_nonneg closed s s' : step closed s s' -> nonneg rows cols s -> nonneg rows cols s'.
  Proof. intros Hs Hn v Hv. rewrite (Hs v Hv). apply next_nonneg; assumption. Qed.

  Lemma toppling_zero s : toppling rows cols s = 0 <-> forall v, 0 <= v < N -> s v < 4.
  Proof.
    unfold toppling. assert (Hg : forall l, zsum (map (fun u => if 4 <=? s u then 1 else 0) l) = 0 <-> forall v, In v l -> s v < 4).
    { induction l as [|x l IH]; [split; [intros _ v []|reflexivity]|]. cbn [map]. rewrite zsum_cons. assert (H0 : 0 <= zsum (map (fun u => if 4 <=? s u then 1 else 0) l)) by (apply zsum_nonneg; intros u _; destruct (4 <=? s u); lia).
      destruct (Z.leb_spec 4 (s x)).
      - split; [lia|]. intros Hx. specialize (Hx x (or_introl eq_refl)). lia.
      - rewrite Z.add_0_l, IH. split; [intros Hx v [<-|Hv]; [assumption|auto]|intros Hx v Hv; apply Hx; right; assumption]. }
    rewrite Hg. split; intros Hx v Hv; apply Hx; [apply in_zrange; lia|apply in_zrange in Hv; lia].
  Qed.

  Lemma stable_step s s' : empty_border s -> step true s s' -> toppling rows cols s = 0 -> forall v, 0 <= v < N -> s' v = s v.
  Proof.
    intros Hb Hs Ht v Hv. rewrite (Hs v Hv). unfold sand_next. cbn [andb]. destruct (border rows cols v) eqn:Eb; [rewrite Hb by assumption; reflexivity|].
    rewrite toppling_zero in Ht. assert (E : received rows cols s v = 0).
    { unfold received. rewrite (zsum_ext _ (fun _ => 0)); [induction (zrange 0 N) as [|x l IH]; [reflexivity|cbn [map]; rewrite zsum_cons, IH; reflexivity]|]. intros u Hu. apply in_zrange in Hu. destruct (Z.leb_spec 4 (s u)) as [Hge|]; [specialize (Ht u ltac:(lia)); lia|]. rewrite andb_false_r. reflexivity. }
    rewrite E. specialize (Ht v Hv). destruct (Z.leb_spec 4 (s v)); lia.
  Qed.

  Lemma toppling_ext s s' : (forall v, 0 <= v < N -> s' v = s v) -> toppling rows cols s' = toppling rows cols s.
  Proof. intros E. unfold toppling. apply zsum_ext. intros u Hu. apply in_zrange in Hu. rewrite E by lia. reflexivity. Qed.

  Lemma pot_nonneg s : nonneg rows cols s -> 0 <= pot s.
  Proof. intros Hn. apply zsum_nonneg. intros v Hv. apply in_zrange in Hv. specialize (Hn v ltac:(lia)). pose proof (h_nonneg v ltac:(lia)) as Hh. cbn beta in Hh. nia. Qed.

  (** after the first step the border is empty; from then on, each step lowers the potential or changes nothing for ever *)
  Lemma settles (ss : list (Z -> Z)) s0 : nth_error ss 0 = Some s0 -> nonneg rows cols s0 ->
    (forall k s s', nth_error ss k = Some s -> nth_error ss (S k) = Some s' -> step true s s') ->
    (forall k s, nth_error ss k = Some s -> nonneg rows cols s) /\
    forall s1, nth_error ss 1 = Some s1 -> forall j s, nth_error ss (S j) = Some s -> empty_border s /\ (toppling rows cols s = 0 \/ pot s + 2 * Z.of_nat j <= pot s1).
  Proof.
    intros E0 Hn Hs. split.
    - induction k as [|k IH]; intros s Ek; [assert (s = s0) by congruence; subst s; assumption|]. destruct (nth_error ss k) as [s'|] eqn:Ek'; [|apply nth_error_None in Ek'; assert (Hlt : (S k < length ss)%nat) by (apply nth_error_Some; congruence); lia]. eapply step_nonneg; [exact (Hs k s' s Ek' Ek)|]. apply IH. reflexivity.
    - intros s1 E1.
      assert (Hnn : forall k s, nth_error ss k = Some s -> nonneg rows cols s).
      { induction k as [|k IH]; intros s Ek; [assert (s = s0) by congruence; subst s; assumption|]. destruct (nth_error ss k) as [s'|] eqn:Ek'; [|apply nth_error_None in Ek'; assert (Hlt : (S k < length ss)%nat) by (apply nth_error_Some; congruence); lia]. eapply step_nonneg; [exact (Hs k s' s Ek' Ek)|]. apply IH. reflexivity. }
      induction j as [|j IH]; intros s Es.
      + assert (s = s1) by congruence. subst s. split; [eapply step_border; [reflexivity|exact (Hs _ _ _ E0 E1)]|]. right. lia.
      + destruct (nth_error ss (S j)) as [t|] eqn:Et; [|apply nth_error_None in Et; assert (Hlt : (S (S j) < length ss)%nat) by (apply nth_error_Some; congruence); lia].
        destruct (IH t eq_refl) as [Hb Ht]. pose proof (Hs _ _ _ Et Es) as Hst. split; [eapply step_border; [reflexivity|exact Hst]|].
        destruct (Z.eq_dec (toppling rows cols t) 0) as [Hz|Hnz].
        * left. rewrite <- Hz. apply toppling_ext. apply stable_step; assumption.
        * right. destruct Ht as [Ht|Ht]; [contradiction|]. pose proof (pot_descent t s (Hnn _ _ Et) Hb Hst). pose proof (toppling_nonneg rows cols t). lia.
  Qed.

  Lemma received_le s v : 0 <= v < N -> received rows cols s v <= 4.
  Proof.
    intros Hv. transitivity (axis_degree rows + axis_degree cols); [|pose proof (axis_degree_le rows); pose proof (axis_degree_le cols); lia].
    rewrite <- (degree rows cols v Hr Hc Hv). unfold received. apply zsum_le. intros u _. unfold ind. destruct (beside rows cols u v), (4 <=? s u); cbn [andb]; lia.
  Qed.

  (** a bound in terms of the initial configuration *)
  Definition settle_bound (s : Z -> Z) : Z := zsum (map (fun v => h v * (s v + 4)) (zrange 0 N)).
  Lemma pot_first s s' : nonneg rows cols s -> step true s s' -> pot s' <= settle_bound s.
  Proof.
    intros Hn Hs. apply zsum_le. intros v Hv. apply in_zrange in Hv. rewrite (Hs v) by lia. unfold sand_next. cbn [andb]. pose proof (received_le s v ltac:(lia)). pose proof (h_nonneg v ltac:(lia)) as Hh. cbn beta in Hh. specialize (Hn v ltac:(lia)).
    destruct (border rows cols v); [nia|]. destruct (Z.leb_spec 4 (s v)); nia.
  Qed.
End Pot.

Section Run.
  Context {U I BA BN : Type}.
  Variable W : env Z Z Z BA BN.

  Theorem sandpile_run rows cols is_closed fuel (u0 : U) c T (g : @args Z Z Z U I) : 0 < rows -> 0 < cols -> 9 <= rows * cols ->
    1 <= T -> (Z.to_nat T <= fuel)%nat -> Z.of_nat (length (to_dict W c)) = rows * cols -> (forall v, 0 <= v < rows * cols -> exists x, dget (to_dict W c) v = Some x) ->
    exists o, sandpile_init rows cols is_closed = Ok o /\
      (static g (stateless (sandpile_rule o)) -> exists uf traj hs, evolve W fuel u0 (sp_net o) (Some c) (Some T) None g = Ok (uf, traj) /\ Z.of_nat (length hs) = T /\
        Forall2 (fun s S => activities W s = Ok (Some S)) traj hs /\ nth_error hs 0 = Some (to_dict W c) /\
        Forall (fun S => forall v, 0 <= v < rows * cols -> exists x, dget S v = Some x) hs /\
        forall k S S', nth_error hs k = Some S -> nth_error hs (Datatypes.S k) = Some S' -> step rows cols is_closed (cell_value S) (cell_value S')).
  Proof.
    intros Hr Hc Hn HT Hf Hlen Hcov. destruct (vn_network rows cols Hr Hc Hn) as (net & E & Hnd & Hnodes & Hclosed & Hnb).
    unfold sandpile_init. rewrite E. cbn [rbind]. eexists. split; [reflexivity|]. set (o := mkSandpile net (get_boundary_indices rows cols) is_closed). intros Hst. cbn [sp_net].
    assert (Hnl : net_len net = Z.to_nat (rows * cols)).
    { replace (net_len net) with (length (nodes net)) by (unfold nodes, dkeys; apply map_length). assert (Hp : Permutation (nodes net) (zrange 0 (rows * cols))).
      { apply NoDup_Permutation; [assumption|apply NoDup_zrange|]. intros v. rewrite in_zrange. apply Hnodes. }
      rewrite (Permutation_length Hp), length_zrange. f_equal. lia. }
    set (full := fun S : dict Z Z => forall v, 0 <= v < rows * cols -> exists x, dget S v = Some x).
    assert (Hstep : forall (S S' : dict Z Z) t past, updated (I:=I) W (sandpile_rule o) None net S t past (InStr "__timestep__") S' -> full S' /\ step rows cols is_closed (cell_value S) (cell_value S')).
    { intros S S' t past [_ Hu]. split.
      - intros v Hv. destruct (Hu v (proj2 (Hnodes _) Hv)) as (x & y & y' & Hx & Ey & _ & Ed). eauto.
      - intros v Hv. destruct (Hu v (proj2 (Hnodes _) Hv)) as (x & y & y' & Hx & Ey & -> & Ed). unfold cell_value at 1. rewrite Ed.
        rewrite (sand_rule W rows cols o S _ _ _ v x Hr Hc Hv eq_refl (fun l Hl => Hnb v l Hv Hl) Hx) in Ey. injection Ey as <-. reflexivity. }
    destruct (stateless_run W fuel u0 net c T g (sandpile_rule o) (Forall full) Hst Hnd HT Hf ltac:(lia) Hclosed) as (uf & traj & hs & Ee & Hl & Hshow & Hfull & Hz & Hs).
    - intros v Hv. apply Hcov, Hnodes. assumption.
    - constructor; [exact Hcov|constructor].
    - intros hist S v x Hi Hv Hx. apply Hnodes in Hv. eexists. exact (sand_rule W rows cols o S _ _ _ v x Hr Hc Hv eq_refl (fun l Hl => Hnb v l Hv Hl) Hx).
    - intros hist S S' Hi Hcv Hu. apply Forall_app. split; [assumption|]. constructor; [|constructor]. eapply Hstep. exact Hu.
    - exists uf, traj, hs. split; [assumption|]. split; [assumption|]. split; [|split; [assumption|split; [assumption|]]].
      + clear - Hshow Hfull Hn. induction Hshow as [|s S traj hs Es Hf IH]; [constructor|]. inversion Hfull as [|? ? HS Hrest]; subst. constructor; [|apply IH; assumption].
        rewrite Es. destruct S; [|reflexivity]. exfalso. destruct (HS 0 ltac:(lia)); discriminate.
      + intros k S S' Ek Ek'. eapply Hstep. exact (Hs k S S' Ek Ek').
  Qed.
End Run.
