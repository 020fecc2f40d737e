(** * Proofs: adjacency round trip, rotation systems of cellular automata, bipartite / complete / disconnected. *)
From Verif Require Import Py PyFacts ListFacts Network NetworkSpec NetworkProofs NetworkProofs2 NetworkProofs3.
From Verif Require Import Topology TopologySpec TopologyProofs TopologyProofs2 TopologyProofs3.
Open Scope string_scope.
Open Scope list_scope.
Open Scope Z_scope.

Lemma mfor_reachable {L V} `{EqD L} (es : list (L * L * dict string V)) n n' :
  reachable n -> mfor es (fun e => add_edge (src e) (tgt e) (dat e)) n = (n', Ok tt) -> reachable n'.
Proof.
  revert n. induction es as [|e es IH]; intros n Hn E.
  - cbn in E. injection E as <-. assumption.
  - cbn [mfor] in E. rewrite mthen_eq in E. destruct (add_edge _ _ _ n) as [n1 [u|x]] eqn:E1; [|discriminate].
    apply (IH n1); [|assumption]. destruct Hn as [os Hos]. exists (os ++ [OpAddEdge (src e) (tgt e) (dat e)]).
    rewrite <- Hos in E1. clear - E1. revert E1. generalize (empty_network : network L V) as m.
    induction os as [|o os IH]; intros m E1; cbn [run_ops app] in *.
    + cbn [run_op]. cbn [fst] in E1. rewrite E1. reflexivity.
    + destruct (run_op o m) as [m1 r]. specialize (IH m1).
      destruct (run_ops os m1) as [m2 rs] eqn:E2. cbn [fst] in *. specialize (IH E1).
      destruct (run_ops (os ++ _) m1) as [m3 rs3]. cbn [fst] in *. assumption.
Qed.

Lemma reachable_empty {L V} `{EqD L} : reachable (empty_network : network L V).
Proof. exists []. reflexivity. Qed.

Section RoundTrip.
  Context {V : Type} (zero one : V) (add : V -> V -> V) (nz : V -> bool).

  Lemma nonzero_at_iff (Hnz : forall v, nz v = false <-> v = zero) M i j v : nonzero_at nz M i j = Some v <-> entry_is M i j v /\ v <> zero.
  Proof.
    unfold nonzero_at, entry_is. split.
    - destruct (Z.leb_spec 0 i); [|discriminate]. destruct (Z.leb_spec 0 j); [|discriminate]. cbn [andb].
      destruct (at_ M i j) as [x|]; [|discriminate]. destruct (nz x) eqn:E; [|discriminate]. intros Ex. injection Ex as ->.
      repeat split; auto. intros Ez. apply Hnz in Ez. congruence.
    - intros [(Hi & Hj & Ea) Hv]. destruct (Z.leb_spec 0 i); [|lia]. destruct (Z.leb_spec 0 j); [|lia]. cbn [andb].
      rewrite Ea. destruct (nz v) eqn:E; [reflexivity|]. apply Hnz in E. contradiction.
  Qed.

  Lemma square_bound k (M : list (list V)) i j v : is_square k M -> entry_is M i j v -> 0 <= i < k /\ 0 <= j < k.
  Proof.
    intros [Hl Hr] (Hi & Hj & Ea). unfold at_ in Ea. destruct (nth_error M (Z.to_nat i)) as [row|] eqn:E; [|discriminate].
    assert (H1 := nth_error_Some M (Z.to_nat i)). rewrite E in H1. assert (H2 := nth_error_Some row (Z.to_nat j)). rewrite Ea in H2.
    assert (H3 := Hr row (nth_error_In _ _ E)). assert (H4 : (Z.to_nat i < length M)%nat) by (apply H1; discriminate).
    assert (H5 : (Z.to_nat j < length row)%nat) by (apply H2; discriminate). lia.
  Qed.

  Lemma square_entry k (M : list (list V)) i j : is_square k M -> 0 <= i < k -> 0 <= j < k -> exists v, at_ M i j = Some v.
  Proof.
    intros [Hl Hr] Hi Hj. unfold at_. destruct (nth_error M (Z.to_nat i)) as [row|] eqn:E.
    - assert (H3 := Hr row (nth_error_In _ _ E)). destruct (nth_error row (Z.to_nat j)) as [v|] eqn:E2; [eauto|].
      apply nth_error_None in E2. lia.
    - apply nth_error_None in E. lia.
  Qed.

  Lemma square_ext k (M M' : list (list V)) : is_square k M -> is_square k M' ->
    (forall i j, 0 <= i < k -> 0 <= j < k -> at_ M i j = at_ M' i j) -> M = M'.
  Proof.
    intros [Hl Hr] [Hl' Hr'] He. apply nth_error_ext. intros p.
    destruct (nth_error M p) as [row|] eqn:E.
    - assert (Hp : (p < length M)%nat) by (apply nth_error_Some; congruence).
      destruct (nth_error M' p) as [row'|] eqn:E'; [|apply nth_error_None in E'; lia]. f_equal.
      assert (H1 := Hr _ (nth_error_In _ _ E)). assert (H2 := Hr' _ (nth_error_In _ _ E')).
      apply nth_error_ext. intros q. destruct (Nat.lt_ge_cases q (length row)) as [Hq|Hq].
      + specialize (He (Z.of_nat p) (Z.of_nat q) ltac:(lia) ltac:(lia)). unfold at_ in He. rewrite !Nat2Z.id, E, E' in He. assumption.
      + rewrite (proj2 (nth_error_None row q)), (proj2 (nth_error_None row' q)) by lia. reflexivity.
    - apply nth_error_None in E. symmetry. apply nth_error_None. lia.
  Qed.

  Lemma adj_length (l : list (Z * Z * dict string V)) nl sum weight (M M' : list (list V)) :
    rfold (adj_step one add (fun v => v) nl sum weight) l M = Ok M' -> length M' = length M.
  Proof.
    revert M. induction l as [|[[u v] a] l IH]; intros M E; cbn [rfold] in E; [injection E as <-; reflexivity|].
    unfold adj_step at 1 in E. destruct (py_find nl u) as [p|]; [|discriminate]. destruct (py_find nl v) as [q|]; [|discriminate].
    cbn [of_opt rbind] in E. unfold mat_upd in E. destruct (nth_error M p) as [row|]; [|discriminate].
    destruct (Nat.ltb q (length row)); [|discriminate]. cbn [rbind] in E. apply IH in E. rewrite E. apply length_upd_nth.
  Qed.

  Lemma to_adj_length n nl sum weight M : to_adjacency_matrix zero one add (fun v : V => v) n nl sum weight = Ok M -> length M = net_len (L:=Z) n.
  Proof.
    unfold to_adjacency_matrix. intros E. apply (adj_length (edges n)) in E. rewrite E, repeat_length. reflexivity.
  Qed.

  Definition covered (k : Z) (M : list (list V)) : Prop :=
    forall x, 0 <= x < k -> exists y v, v <> zero /\ (entry_is M x y v \/ entry_is M y x v).

  Lemma from_adjacency_roundtrip (M : list (list V)) (k : Z) :
    (forall v, nz v = false <-> v = zero) -> (forall v, add zero v = v) -> is_square k M ->
    exists net, from_adjacency_matrix nz M = (net, Ok tt) /\ net_rot net = None /\
      (forall i j v, entry_is M i j v -> v <> zero -> edge net i j = Ok [[("weight", v)]]) /\
      (forall i j, (forall v, entry_is M i j v -> v = zero) -> edge net i j = Err KeyError) /\
      NoDup (nodes net) /\
      (forall x, In x (nodes net) <-> exists y v, v <> zero /\ (entry_is M x y v \/ entry_is M y x v)) /\
      (forall sum, to_adjacency_matrix zero one add (fun v => v) net (Some (zrange 0 k)) sum (Some "weight") = Ok M <-> covered k M) /\
      (forall sum, exists M', to_adjacency_matrix zero one add (fun v => v) net None sum (Some "weight") = Ok M' /\
         length M' = length (nodes net) /\
         forall p q u w, nth_error (nodes net) p = Some u -> nth_error (nodes net) q = Some w ->
           at_ M' (Z.of_nat p) (Z.of_nat q) = at_ M u w).
  Proof.
    intros Hnz Hadd Hsq. destruct (from_adj_R nz M) as (net & E & HR & Hrot). exists net. split; [assumption|]. split; [assumption|].
    assert (Hreach : reachable net).
    { rewrite from_adj_eq in E. eapply mfor_reachable; [apply reachable_empty|eassumption]. }
    assert (Hedge : forall i j, edge net i j = match nonzero_at nz M i j with Some v => Ok [[("weight", v)]] | None => Err KeyError end).
    { intros i j. rewrite (edge_R _ _ i j HR). change (between (graph_of (adj_edges nz M)) i j) with (betw (adj_edges nz M) i j).
      rewrite betw_adj. destruct (nonzero_at nz M i j); reflexivity. }
    assert (Hnodes : forall x, In x (nodes net) <-> exists y v, v <> zero /\ (entry_is M x y v \/ entry_is M y x v)).
    { intros x. rewrite (nodes_R _ _ HR). change (In x (map fst (g_nodes (graph_of (adj_edges nz M))))) with (is_node (graph_of (adj_edges nz M)) x).
      rewrite node_adj. split.
      - intros (w & [Hw|Hw]).
        + destruct (nonzero_at nz M x w) as [v|] eqn:Ev; [|congruence]. apply (nonzero_at_iff Hnz) in Ev. exists w, v. tauto.
        + destruct (nonzero_at nz M w x) as [v|] eqn:Ev; [|congruence]. apply (nonzero_at_iff Hnz) in Ev. exists w, v. tauto.
      - intros (y & v & Hv & [He|He]); exists y; [left|right];
          rewrite (proj2 (nonzero_at_iff Hnz M _ _ v) (conj He Hv)); discriminate. }
    assert (Hnd : NoDup (nodes net)) by (exact (R_NoDup _ _ HR)).
    assert (Hin : forall x, In x (nodes net) -> 0 <= x < k).
    { intros x Hx. apply Hnodes in Hx. destruct Hx as (y & v & Hv & [He|He]); apply (square_bound k) in He; tauto. }
    assert (Hval : forall (sum : bool) u w, 0 <= u < k -> 0 <= w < k ->
              let ws := match edge net u w with Ok es => map (edge_weight one (fun v => v) (Some "weight")) es | Err _ => [] end in
              Some (if sum then fold_left add ws zero else last ws zero) = at_ M u w).
    { intros sum u w Hu Hw. cbv zeta. destruct (square_entry k M u w Hsq Hu Hw) as [x Ex]. rewrite Ex, Hedge.
      destruct (nonzero_at nz M u w) as [v|] eqn:Ev.
      - apply (nonzero_at_iff Hnz) in Ev. destruct Ev as [(_ & _ & Ea) _]. rewrite Ea in Ex. injection Ex as ->.
        cbn. destruct sum; [rewrite Hadd|]; reflexivity.
      - assert (x = zero) as ->.
        { destruct (nz x) eqn:Enz; [|apply Hnz; assumption]. exfalso.
          assert (Hx : nonzero_at nz M u w = Some x).
          { apply (nonzero_at_iff Hnz). split; [repeat split; [lia|lia|assumption]|]. intros ->. rewrite (proj2 (Hnz zero) eq_refl) in Enz. discriminate. }
          congruence. }
        destruct sum; reflexivity. }
    split; [|split; [|split; [assumption|split; [assumption|split]]]].
    - intros i j v He Hv. rewrite Hedge, (proj2 (nonzero_at_iff Hnz M i j v) (conj He Hv)). reflexivity.
    - intros i j Hz. rewrite Hedge. destruct (nonzero_at nz M i j) as [v|] eqn:Ev; [|reflexivity].
      apply (nonzero_at_iff Hnz) in Ev. destruct Ev as [He Hv]. apply Hz in He. contradiction.
    - intros sum. split.
      + intros Em x Hx. apply to_adj_length in Em. destruct (in_dec Z.eq_dec x (nodes net)) as [Hi|Hni]; [apply Hnodes; assumption|].
        exfalso. assert (Hlen : (length (x :: nodes net) <= length (zrange 0 k))%nat).
        { apply NoDup_incl_length; [constructor; assumption|]. intros y [<-|Hy]; apply in_zrange; [lia|]. apply Hin. assumption. }
        rewrite length_zrange in Hlen. cbn [length] in Hlen. unfold nodes, dkeys in Hlen. rewrite map_length in Hlen.
        unfold net_len in Em. destruct Hsq as [Hl _]. lia.
      + intros Hcov.
        assert (Hperm : Permutation (zrange 0 k) (nodes net)).
        { apply NoDup_Permutation; [apply NoDup_zrange|assumption|]. intros x. rewrite in_zrange. split.
          - intros Hx. apply Hnodes, Hcov. assumption.
          - apply Hin. }
        destruct (to_adjacency_spec zero one add (fun v => v) net (zrange 0 k) sum (Some "weight") Hreach Hperm) as (M' & E' & Hl & Hr & He).
        rewrite E'. f_equal. 
        assert (Hk : net_len net = Z.to_nat k).
        { unfold net_len. rewrite <- (map_length fst). change (map fst (net_nodes net)) with (nodes net).
          rewrite <- (Permutation_length Hperm), length_zrange. f_equal. lia. }
        assert (Hk0 : 0 <= k) by (destruct Hsq; lia).
        apply (square_ext k).
        * split; [lia|]. intros row Hrow. rewrite (Hr row Hrow). lia.
        * assumption.
        * intros i j Hi Hj. specialize (He (Z.to_nat i) (Z.to_nat j) i j).
          rewrite !nth_error_zrange in He by lia. rewrite !Z2Nat.id in He by lia. rewrite !Z.add_0_l in He.
          specialize (He eq_refl eq_refl). cbv zeta in He. rewrite (Hval sum i j Hi Hj) in He.
          rewrite <- He. reflexivity.
    - intros sum. rewrite (proj1 (to_adjacency_default zero one add (fun v : V => v) net sum (Some "weight"))).
      destruct (to_adjacency_spec zero one add (fun v => v) net (nodes net) sum (Some "weight") Hreach (Permutation_refl _)) as (M' & E' & Hl & Hr & He).
      exists M'. split; [assumption|]. split; [rewrite Hl; unfold net_len, nodes, dkeys; rewrite map_length; reflexivity|].
      intros p q u w Hp Hq. specialize (He p q u w Hp Hq). cbv zeta in He.
      rewrite (Hval sum u w) in He by (apply Hin; eapply nth_error_In; eassumption).
      rewrite <- He. unfold at_, entry. rewrite !Nat2Z.id. reflexivity.
  Qed.
End RoundTrip.

(** ** shift_to_center *)

Lemma zinsert_lt x l : (forall y, In y l -> x < y) -> zinsert x l = x :: l.
Proof. destruct l as [|y ys]; intros Hl; cbn; [reflexivity|]. specialize (Hl y (or_introl eq_refl)). destruct (Z.leb_spec x y); [reflexivity|lia]. Qed.

Lemma zsort_asc l : asc l -> zsort l = l.
Proof.
  induction l as [|x xs IH]; intros Ha; [reflexivity|]. apply asc_cons_inv in Ha. destruct Ha as [Hxs Hx]. cbn.
  rewrite IH by assumption. apply zinsert_lt. assumption.
Qed.

Lemma deque_rotate_rot {A} (l : list A) s : l <> [] ->
  deque_rotate l s = rot (length l - Z.to_nat (s mod Z.of_nat (length l))) l.
Proof. destruct l as [|x xs]; [congruence|]. intros _. reflexivity. Qed.

Lemma shift_to_center_spec l v : asc l -> In v l ->
  exists k, (k <= length l)%nat /\ shift_to_center l v = Ok (rot k l) /\ nth_error (rot k l) (length l / 2) = Some v.
Proof.
  intros Ha Hv. unfold shift_to_center. destruct (py_find_in l v Hv) as [idx Ei]. rewrite Ei. cbn [of_opt rbind].
  rewrite zsort_asc by assumption.
  assert (Hne : l <> []) by (intros ->; contradiction). rewrite deque_rotate_rot by assumption.
  set (len := length l) in *. assert (Hlen : (0 < len)%nat) by (unfold len; destruct l; [congruence|cbn; lia]).
  apply py_find_some in Ei. assert (Hidx : (idx < len)%nat) by (apply nth_error_Some; congruence).
  set (m := Z.of_nat (len / 2) - Z.of_nat idx). assert (Hm := Z.mod_pos_bound m (Z.of_nat len) ltac:(lia)).
  assert (Hc : (len / 2 < len)%nat) by (apply Nat.div_lt; lia).
  exists (len - Z.to_nat (m mod Z.of_nat len))%nat. split; [lia|]. split; [reflexivity|].
  rewrite nth_error_rot by (fold len; lia). fold len. rewrite <- Ei. f_equal. apply Nat2Z.inj.
  rewrite Nat2Z.inj_mod. replace (Z.of_nat (len / 2 + (len - Z.to_nat (m mod Z.of_nat len))))
    with (Z.of_nat (len / 2) - m mod Z.of_nat len + 1 * Z.of_nat len) by lia.
  rewrite Z.mod_add by lia. rewrite Zminus_mod_idemp_r. unfold m.
  replace (Z.of_nat (len / 2) - (Z.of_nat (len / 2) - Z.of_nat idx)) with (Z.of_nat idx) by lia.
  apply Z.mod_small. lia.
Qed.

(** ** set_ordered on the network of a 0/1 matrix with ones on the diagonal *)

Definition one_at (M : list (list Z)) (i j : Z) : bool := match at_ M i j with Some x => nzb x | None => false end.

Lemma ordered_spec M k net : is_square k M -> (forall v, 0 <= v < k -> one_at M v v = true) ->
  R net (graph_of (adj_edges nzb M)) -> 
  exists rs, set_ordered net = (mkNet (net_nodes net) (Some rs), Ok tt) /\ dkeys rs = nodes net /\
    (forall v, In v (nodes net) <-> 0 <= v < k) /\
    forall v, 0 <= v < k -> exists T inc,
      dget rs v = Some T /\ in_edges net v = Ok inc /\ dkeys inc = filter (fun i => one_at M i v) (zrange 0 k) /\
      exists j, (j <= length (dkeys inc))%nat /\ T = rot j (dkeys inc) /\ nth_error T (length (dkeys inc) / 2) = Some v.
Proof.
  intros Hsq Hdiag HR.
  assert (Hnodes : forall v, In v (nodes net) <-> 0 <= v < k).
  { intros v. rewrite (nodes_R _ _ HR). change (In v (map fst (g_nodes (graph_of (adj_edges nzb M))))) with (is_node (graph_of (adj_edges nzb M)) v).
    rewrite node_adj. split.
    - assert (Hb : forall i j, nonzero_at nzb M i j <> None -> 0 <= i < k /\ 0 <= j < k).
      { intros i j Hn. unfold nonzero_at in Hn. destruct (Z.leb_spec 0 i); [|contradiction]. destruct (Z.leb_spec 0 j); [|contradiction].
        cbn [andb] in Hn. destruct (at_ M i j) as [x|] eqn:Ea; [|contradiction]. apply (square_bound k M i j x Hsq). repeat split; assumption. }
      intros (w & [Hw|Hw]); apply Hb in Hw; tauto.
    - intros Hv. exists v. left. specialize (Hdiag v Hv). unfold one_at in Hdiag. unfold nonzero_at.
      destruct (Z.leb_spec 0 v); [|lia]. cbn [andb]. destruct (at_ M v v) as [x|]; [|discriminate]. rewrite Hdiag. discriminate. }
  assert (Hinc : forall v, 0 <= v < k -> exists inc, in_edges net v = Ok inc /\ dkeys inc = filter (fun i => one_at M i v) (zrange 0 k)).
  { intros v Hv. rewrite (in_edges_R _ _ v HR).
    assert (Hisn : is_nodeb (graph_of (adj_edges nzb M)) v = true).
    { apply is_nodeb_true. unfold is_node. rewrite <- (nodes_R _ _ HR). apply Hnodes. assumption. }
    rewrite Hisn. eexists. split; [reflexivity|]. rewrite dkeys_mapkey, (in_neighbours_adj nzb M k v Hsq).
    apply filter_ext_in. intros i Hi. apply in_zrange in Hi. unfold nonzero_at, one_at.
    destruct (Z.leb_spec 0 i); [|lia]. destruct (Z.leb_spec 0 v); [|lia]. cbn [andb].
    destruct (at_ M i v) as [x|]; [|reflexivity]. destruct (nzb x); reflexivity. }
  assert (Hshift : forall v, exists T, 0 <= v < k -> exists inc,
      in_edges net v = Ok inc /\ dkeys inc = filter (fun i => one_at M i v) (zrange 0 k) /\
      shift_to_center (dkeys inc) v = Ok T /\
      exists j, (j <= length (dkeys inc))%nat /\ T = rot j (dkeys inc) /\ nth_error T (length (dkeys inc) / 2) = Some v).
  { intros v. destruct (Z_le_dec 0 v) as [H1|H1]; [|exists []; lia]. destruct (Z_lt_dec v k) as [H2|H2]; [|exists []; lia].
    destruct (Hinc v (conj H1 H2)) as (inc & E1 & E2).
    destruct (shift_to_center_spec (dkeys inc) v) as (j & Hj & Es & En).
    - rewrite E2. apply asc_filter, asc_zrange.
    - rewrite E2. apply filter_In. split; [apply in_zrange; lia|apply Hdiag; lia].
    - exists (rot j (dkeys inc)). intros _. exists inc. eauto 8. }
  assert (Hrm : exists rs, rmap (fun node => inc <- in_edges net node ;; shifted <- shift_to_center (dkeys inc) node ;; Ok (node, shifted)) (nodes net) = Ok rs
     /\ dkeys rs = nodes net /\ forall v, In v (nodes net) -> exists T, dget rs v = Some T /\ exists inc, in_edges net v = Ok inc /\ shift_to_center (dkeys inc) v = Ok T).
  { assert (Hnd : NoDup (nodes net)) by exact (R_NoDup _ _ HR).
    assert (Hall : forall v, In v (nodes net) -> 0 <= v < k) by (intros v; apply Hnodes).
    clear - Hshift Hall Hnd. induction (nodes net) as [|v vs IH]; cbn [rmap].
    - exists []. repeat split. intros v [].
    - inversion Hnd; subst. destruct IH as (rs & Er & Ek & Hg); [assumption|intros w Hw; apply Hall; right; assumption|].
      destruct (Hshift v) as [T HT]. destruct (HT (Hall v (or_introl eq_refl))) as (inc & E1 & E2 & E3 & _).
      rewrite E1. cbn [rbind]. rewrite E3. cbn [rbind]. rewrite Er. cbn [rbind]. exists ((v, T) :: rs). split; [reflexivity|].
      split; [cbn; f_equal; assumption|]. intros w [<-|Hw]; cbn [dget].
      + destruct (eqd v v); [|congruence]. eauto.
      + destruct (eqd w v) as [->|]; [contradiction|]. apply Hg. assumption. }
  destruct Hrm as (rs & Er & Ek & Hg). unfold set_ordered. rewrite Er. exists rs.
  assert (Hfinal : forall v, 0 <= v < k -> exists T inc,
      dget rs v = Some T /\ in_edges net v = Ok inc /\ dkeys inc = filter (fun i => one_at M i v) (zrange 0 k) /\
      exists j, (j <= length (dkeys inc))%nat /\ T = rot j (dkeys inc) /\ nth_error T (length (dkeys inc) / 2) = Some v).
  { intros v Hv. destruct (Hg v (proj2 (Hnodes v) Hv)) as (T & E1 & inc & E2 & E3).
    destruct (Hshift v) as [T' HT]. destruct (HT Hv) as (inc' & E2' & E4 & E3' & Hj).
    rewrite E2 in E2'. injection E2' as <-. rewrite E3 in E3'. injection E3' as <-. exists T, inc. auto. }
  split; [|auto].
  unfold set_rotation_system.
  match goal with |- (if ?c then _ else _) = _ => assert (Hc : c = true) end; [|rewrite Hc; reflexivity].
  apply forallb_forall. intros [v T] Hin. cbn [fst snd].
  assert (Hv : In v (nodes net)) by (rewrite <- Ek; apply in_map_iff; exists (v, T); auto).
  assert (HndK : NoDup (dkeys rs)) by (rewrite Ek; exact (R_NoDup _ _ HR)).
  assert (Eg : dget rs v = Some T) by (apply dget_in; assumption).
  rewrite andb_true_iff. split; [apply dmem_true; assumption|]. apply forallb_forall. intros u Hu. apply dmem_true.
  destruct (Hfinal v (proj1 (Hnodes v) Hv)) as (T' & inc & E1 & E2 & E3 & j & Hj & ET & En).
  rewrite Eg in E1. injection E1 as <-. rewrite ET in Hu. apply (Permutation_in _ (rot_perm j _)) in Hu.
  rewrite E3 in Hu. apply filter_In in Hu. destruct Hu as [Hu _]. apply in_zrange in Hu.
  change (In u (nodes net)). apply Hnodes. assumption.
Qed.

(** ** 1D automaton *)

Lemma ring_dist_offset n r i v : 0 < n -> 0 <= r -> 0 <= i < n -> 0 <= v < n ->
  ring_distance n i v <= r <-> exists d, - r <= d <= r /\ i = (v + d) mod n.
Proof.
  intros Hn Hr Hi Hv. unfold ring_distance. split.
  - intros Hd. apply Z.min_le_iff in Hd. destruct Hd as [Hd|Hd].
    + exists (- ((v - i) mod n)). assert (Hb := Z.mod_pos_bound (v - i) n Hn). split; [lia|].
      rewrite Z.add_opp_r, Zminus_mod_idemp_r. replace (v - (v - i)) with i by lia. symmetry. apply Z.mod_small. lia.
    + exists ((i - v) mod n). assert (Hb := Z.mod_pos_bound (i - v) n Hn). split; [lia|].
      rewrite Zplus_mod_idemp_r. replace (v + (i - v)) with i by lia. symmetry. apply Z.mod_small. lia.
  - intros (d & Hd & ->). apply Z.min_le_iff. destruct (Z.le_gt_cases 0 d) as [H0|H0].
    + right. rewrite Zminus_mod_idemp_l. replace (v + d - v) with d by lia.
      apply Z.le_trans with d; [apply Z.mod_le; lia|lia].
    + left. rewrite Zminus_mod_idemp_r. replace (v - (v + d)) with (- d) by lia.
      apply Z.le_trans with (- d); [apply Z.mod_le; lia|lia].
Qed.

Definition ring_window (n r c : Z) : list Z := map (fun d => (c + d) mod n) (zrange (- r) (r + 1)).

Lemma map_zrange_add {B} (f : Z -> B) a b d : map f (zrange (a + d) (b + d)) = map (fun x => f (x + d)) (zrange a b).
Proof. rewrite zrange_shift, map_map. reflexivity. Qed.

Lemma map_mod_zrange n c a b q : 0 < n -> (forall d, a <= d < b -> q * n <= c + d < (q + 1) * n) ->
  map (fun d => (c + d) mod n) (zrange a b) = zrange (c + a - q * n) (c + b - q * n).
Proof.
  intros Hn Hq. replace (c + a - q * n) with (a + (c - q * n)) by lia. replace (c + b - q * n) with (b + (c - q * n)) by lia.
  rewrite zrange_shift. apply map_ext_in. intros d Hd. apply in_zrange in Hd. specialize (Hq d Hd).
  symmetry. apply (Z.mod_unique_pos _ _ q); lia.
Qed.

Lemma ring_window_rot n r c : 0 <= c < n -> 0 <= r -> 2 * r + 1 <= n ->
  exists l j, asc l /\ (j <= length l)%nat /\ ring_window n r c = rot j l.
Proof.
  intros Hc Hr Hn. unfold ring_window.
  assert (Hrot : forall A B : list Z, B ++ A = rot (length A) (A ++ B)).
  { intros A B. unfold rot. rewrite skipn_app, skipn_all, Nat.sub_diag, firstn_app, firstn_all, Nat.sub_diag. cbn.
    rewrite app_nil_r. reflexivity. }
  destruct (Z.lt_ge_cases (c - r) 0) as [Hlo|Hlo]; [|destruct (Z.lt_ge_cases (c + r) n) as [Hhi|Hhi]].
  - rewrite (zrange_split (- r) (- c) (r + 1)) by lia. rewrite map_app.
    rewrite (map_mod_zrange n c (- r) (- c) (-1)) by lia. rewrite (map_mod_zrange n c (- c) (r + 1) 0) by lia.
    rewrite Hrot. eexists. eexists. split; [|split; [|reflexivity]].
    + apply asc_app; [apply asc_zrange|apply asc_zrange|]. intros x y Hx Hy. apply in_zrange in Hx, Hy. lia.
    + rewrite app_length. lia.
  - rewrite (map_mod_zrange n c (- r) (r + 1) 0) by lia.
    exists (zrange (c + - r - 0 * n) (c + (r + 1) - 0 * n)), 0%nat. split; [apply asc_zrange|]. split; [lia|].
    unfold rot. cbn. rewrite app_nil_r. reflexivity.
  - rewrite (zrange_split (- r) (n - c) (r + 1)) by lia. rewrite map_app.
    rewrite (map_mod_zrange n c (- r) (n - c) 0) by lia. rewrite (map_mod_zrange n c (n - c) (r + 1) 1) by lia.
    rewrite Hrot. eexists. eexists. split; [|split; [|reflexivity]].
    + apply asc_app; [apply asc_zrange|apply asc_zrange|]. intros x y Hx Hy. apply in_zrange in Hx, Hy. lia.
    + rewrite app_length. lia.
Qed.

(** a rotation of an ascending list is determined by its elements and one position *)
Lemma rot_determined l1 l2 j1 j2 p x : asc l1 -> asc l2 -> (forall y, In y l1 <-> In y l2) ->
  (j1 <= length l1)%nat -> (j2 <= length l2)%nat ->
  nth_error (rot j1 l1) p = Some x -> nth_error (rot j2 l2) p = Some x -> rot j1 l1 = rot j2 l2.
Proof.
  intros H1 H2 Hin Hj1 Hj2 E1 E2. assert (l1 = l2) by (apply asc_unique; assumption). subst l2.
  apply (rot_unique l1 j1 j2 p x); try assumption.
  - apply asc_NoDup. assumption.
  - rewrite <- (length_rot j1). apply nth_error_Some. congruence.
Qed.

Lemma ca1d_ordered n r : 3 <= n -> 0 <= r <= n ->
  exists net rs, cellular_automaton n r true = Ok net /\ net_rot net = Some rs /\ dkeys rs = nodes net /\ NoDup (nodes net) /\
    (forall v, In v (nodes net) <-> 0 <= v < n) /\
    forall v, 0 <= v < n -> exists T l inc, dget rs v = Some T /\ in_edges net v = Ok inc /\ dkeys inc = l /\ asc l /\
      (forall u, In u l <-> 0 <= u < n /\ ring_distance n u v <= r) /\
      exists j, (j <= length l)%nat /\ T = rot j l /\ nth_error T (length l / 2) = Some v.
Proof.
  intros Hn Hr. unfold cellular_automaton. destruct (adj1d_spec n r Hn Hr) as (M & E & Hsq & He). rewrite E. cbn [rbind].
  destruct (from_adj_R nzb M) as (net & E2 & HR & Hrot). rewrite E2.
  destruct (ordered_spec M n net Hsq) as (rs & E3 & Ek & Hnodes & Hv).
  - intros v Hv. unfold one_at. rewrite He by assumption. unfold ring_distance. rewrite Z.sub_diag, Z.mod_0_l, Z.min_id by lia.
    destruct (Z.leb_spec 0 r); [reflexivity|lia].
  - assumption.
  - rewrite E3. eexists. exists rs. split; [reflexivity|]. cbn [net_rot]. split; [reflexivity|].
    change (nodes (mkNet (net_nodes net) (Some rs))) with (nodes net). split; [assumption|]. split; [exact (R_NoDup _ _ HR)|].
    split; [assumption|]. intros v Hv'. destruct (Hv v Hv') as (T & inc & E4 & E5 & E6 & j & Hj & ET & En).
    exists T, (dkeys inc), inc. split; [assumption|]. split; [assumption|]. split; [reflexivity|].
    split; [rewrite E6; apply asc_filter, asc_zrange|]. split; [|eauto].
    intros u. rewrite E6, filter_In, in_zrange. unfold one_at. split.
    + intros [Hu Ho]. split; [assumption|]. rewrite He in Ho by assumption. destruct (Z.leb_spec (ring_distance n u v) r); [assumption|discriminate].
    + intros [Hu Ho]. split; [assumption|]. rewrite He by assumption. destruct (Z.leb_spec (ring_distance n u v) r); [reflexivity|lia].
Qed.

Lemma ca1d_order n r : 3 <= n -> 0 <= r -> 2 * r + 1 <= n ->
  exists net rs, cellular_automaton n r true = Ok net /\ net_rot net = Some rs /\
    (forall c, In c (nodes net) <-> 0 <= c < n) /\
    forall c, 0 <= c < n -> dget rs c = Some (map (fun d => (c + d) mod n) (zrange (- r) (r + 1))).
Proof.
  intros Hn Hr H2r. destruct (ca1d_ordered n r Hn ltac:(lia)) as (net & rs & E & Erot & Ek & Hnd & Hnodes & Hv).
  exists net, rs. split; [assumption|]. split; [assumption|]. split; [assumption|]. intros c Hc.
  destruct (Hv c Hc) as (T & l & inc & E1 & E2 & E3 & Hasc & Hin & j & Hj & ET & En). rewrite E1. f_equal. fold (ring_window n r c).
  destruct (ring_window_rot n r c Hc Hr H2r) as (l' & j' & Hasc' & Hj' & Ew). rewrite ET, Ew in *.
  assert (Hin' : forall y, In y l <-> In y l').
  { intros y. rewrite Hin. transitivity (In y (ring_window n r c)).
    - unfold ring_window. rewrite in_map_iff. split.
      + intros [Hy Hd]. apply ring_dist_offset in Hd; try lia. destruct Hd as (d & Hd & ->). exists d. split; [reflexivity|]. apply in_zrange. lia.
      + intros (d & <- & Hd). apply in_zrange in Hd. assert (Hb := Z.mod_pos_bound (c + d) n ltac:(lia)). split; [assumption|].
        apply ring_dist_offset; try lia. exists d. split; [lia|reflexivity].
    - rewrite Ew. split; apply Permutation_in; [|symmetry]; apply rot_perm. }
  assert (El : l = l') by (apply asc_unique; assumption). subst l'.
  assert (Elen : length l = Z.to_nat (2 * r + 1)).
  { rewrite <- (length_rot j'), <- Ew. unfold ring_window. rewrite map_length, length_zrange. f_equal. lia. }
  apply (rot_unique l j j' (Z.to_nat r) c); try assumption.
  - apply asc_NoDup. assumption.
  - rewrite Elen. lia.
  - replace (Z.to_nat r) with (length l / 2)%nat; [assumption|]. rewrite Elen.
    replace (Z.to_nat (2 * r + 1)) with (Z.to_nat r * 2 + 1)%nat by lia. rewrite Nat.div_add_l by lia. cbn. lia.
  - rewrite <- Ew. unfold ring_window. rewrite nth_error_map, nth_error_zrange by lia. cbn [option_map]. f_equal.
    rewrite Z2Nat.id by lia. replace (c + (- r + r)) with c by lia. apply Z.mod_small. assumption.
Qed.

(** ** 2D automaton *)

Lemma ca2d_ordered rows cols r nb crit : 0 < rows -> 0 < cols -> 9 <= rows * cols -> 0 <= r ->
  (nb = "von Neumann" /\ crit = crit_von_neumann \/ nb = "Moore" /\ crit = crit_moore \/ nb = "Hex" /\ crit = crit_hex) ->
  exists net rs, cellular_automaton2d rows cols r nb true = Ok net /\ net_rot net = Some rs /\ dkeys rs = nodes net /\ NoDup (nodes net) /\
    (forall v, In v (nodes net) <-> 0 <= v < rows * cols) /\
    forall a b, 0 <= a < rows -> 0 <= b < cols -> exists T l inc, dget rs (cell cols a b) = Some T /\
      in_edges net (cell cols a b) = Ok inc /\ dkeys inc = l /\ asc l /\
      (forall u, In u l -> 0 <= u < rows * cols) /\
      (forall c d, 0 <= c < rows -> 0 <= d < cols -> (In (cell cols c d) l <-> torus_step rows cols (crit_offset crit r c) c d a b)) /\
      exists j, (j <= length l)%nat /\ T = rot j l /\ nth_error T (length l / 2) = Some (cell cols a b).
Proof.
  intros Hr Hc Hn Hrad Hnb. unfold cellular_automaton2d.
  destruct (adj2d_entries rows cols r nb crit Hr Hc Hn Hnb) as (M & E & Hsq & He). rewrite E. cbn [rbind].
  destruct (from_adj_R nzb M) as (net & E2 & HR & Hrot). rewrite E2.
  assert (Hself : forall a b, 0 <= a < rows -> 0 <= b < cols -> torus_step rows cols (crit_offset crit r a) a b a b).
  { intros a b Ha Hb. exists 0, 0. split; [|rewrite !Z.add_0_r, !Z.mod_small by lia; auto].
    unfold crit_offset. cbn [Z.abs]. repeat split; try lia. rewrite !Z.add_0_r, Z.mul_0_r.
    destruct Hnb as [[_ ->]|[[_ ->]|[_ ->]]]; unfold crit_von_neumann, crit_moore, crit_hex; rewrite Z.sub_diag; cbn [Z.abs];
      rewrite ?Z.add_0_r; destruct (Z.leb_spec 0 r); try reflexivity; lia. }
  destruct (ordered_spec M (rows * cols) net Hsq) as (rs & E3 & Ek & Hnodes & Hv).
  - intros v Hv. destruct (cell_surj rows cols v Hc Hv) as (Ev & Ha & Hb). rewrite Ev. unfold one_at.
    destruct (He _ _ _ _ Ha Hb Ha Hb) as [[_ ->]|[Hno _]]; [reflexivity|]. exfalso. apply Hno, Hself; assumption.
  - assumption.
  - rewrite E3. eexists. exists rs. split; [reflexivity|]. cbn [net_rot]. split; [reflexivity|].
    change (nodes (mkNet (net_nodes net) (Some rs))) with (nodes net). split; [assumption|]. split; [exact (R_NoDup _ _ HR)|].
    split; [assumption|]. intros a b Ha Hb. destruct (Hv _ (cell_bound rows cols a b Ha Hb)) as (T & inc & E4 & E5 & E6 & j & Hj & ET & En).
    exists T, (dkeys inc), inc. split; [assumption|]. split; [assumption|]. split; [reflexivity|].
    split; [rewrite E6; apply asc_filter, asc_zrange|]. split; [intros u Hu; rewrite E6 in Hu; apply filter_In in Hu; apply in_zrange; tauto|].
    split; [|eauto]. intros c d Hc' Hd. rewrite E6, filter_In, in_zrange. unfold one_at.
    destruct (He c d a b Hc' Hd Ha Hb) as [[Hs ->]|[Hs ->]]; cbn.
    + split; [tauto|]. intros _. split; [apply cell_bound; assumption|reflexivity].
    + split; [intros [_ Hx]; discriminate|tauto].
Qed.

Definition moore_window (cols r a b : Z) : list Z :=
  flat_map (fun dx => map (fun dy => (a + dx) * cols + (b + dy)) (zrange (- r) (r + 1))) (zrange (- r) (r + 1)).

Lemma asc_flat_map (f : Z -> list Z) l : asc l -> (forall x, In x l -> asc (f x)) ->
  (forall x y u v, In x l -> In y l -> x < y -> In u (f x) -> In v (f y) -> u < v) -> asc (flat_map f l).
Proof.
  induction l as [|x xs IH]; intros Ha Hf Hlt; [apply asc_nil|]. apply asc_cons_inv in Ha. destruct Ha as [Hxs Hx]. cbn.
  apply asc_app.
  - apply Hf. left. reflexivity.
  - apply IH; [assumption|intros y Hy; apply Hf; right; assumption|]. intros y z u v Hy Hz. apply Hlt; right; assumption.
  - intros u v Hu Hv. apply in_flat_map in Hv. destruct Hv as (y & Hy & Hv).
    apply (Hlt x y u v); [left; reflexivity|right; assumption|apply Hx; assumption|assumption|assumption].
Qed.

Lemma asc_moore_window cols r a b : 0 <= r <= b -> b + r < cols -> asc (moore_window cols r a b).
Proof.
  intros Hb Hbr. apply asc_flat_map.
  - apply asc_zrange.
  - intros x Hx. apply asc_map; [intros; lia|apply asc_zrange].
  - intros x y u v Hx Hy Hxy Hu Hv. apply in_map_iff in Hu, Hv. destruct Hu as (d & <- & Hd), Hv as (e & <- & He).
    apply in_zrange in Hd, He. nia.
Qed.

Lemma length_flat_map_const {A B} (f : A -> list B) l m : (forall x, In x l -> length (f x) = m) -> length (flat_map f l) = (length l * m)%nat.
Proof.
  induction l as [|x xs IH]; intros Hf; [reflexivity|]. cbn. rewrite app_length, IH by (intros y Hy; apply Hf; right; assumption).
  rewrite Hf by (left; reflexivity). reflexivity.
Qed.

Lemma nth_error_flat_map_const {A B} (f : A -> list B) l m p q : (forall x, In x l -> length (f x) = m) -> (q < m)%nat ->
  nth_error (flat_map f l) (p * m + q) = match nth_error l p with Some x => nth_error (f x) q | None => None end.
Proof.
  revert p. induction l as [|x xs IH]; intros p Hf Hq; cbn [flat_map].
  - destruct p; cbn [nth_error]; destruct (_ * m + q)%nat; reflexivity.
  - destruct p as [|p]; cbn [nth_error].
    + apply nth_error_app1. rewrite Hf by (left; reflexivity). cbn. assumption.
    + rewrite nth_error_app2 by (rewrite Hf by (left; reflexivity); cbn; lia).
      rewrite Hf by (left; reflexivity). replace (S p * m + q - m)%nat with (p * m + q)%nat by (cbn; lia).
      apply IH; [intros y Hy; apply Hf; right; assumption|assumption].
Qed.

Lemma moore_interior rows cols r : 0 < rows -> 0 < cols -> 9 <= rows * cols -> 0 <= r ->
  exists net rs, cellular_automaton2d rows cols r "Moore" true = Ok net /\ net_rot net = Some rs /\
    forall a b, r <= a < rows - r -> r <= b < cols - r ->
      dget rs (a * cols + b) = Some (moore_window cols r a b).
Proof.
  intros Hr Hc Hn Hrad. destruct (ca2d_ordered rows cols r "Moore" crit_moore Hr Hc Hn Hrad ltac:(auto)) as (net & rs & E & Erot & Ek & Hnd & Hnodes & Hv).
  exists net, rs. split; [assumption|]. split; [assumption|]. intros a b Ha Hb.
  destruct (Hv a b ltac:(lia) ltac:(lia)) as (T & l & inc & E1 & E2 & E3 & Hasc & Hub & Hin & j & Hj & ET & En).
  fold (cell cols a b). rewrite E1. f_equal. rewrite ET in *.
  assert (Hw : asc (moore_window cols r a b)) by (apply asc_moore_window; lia).
  assert (El : l = moore_window cols r a b).
  { apply asc_unique; [assumption|assumption|]. intros u. split.
    - intros Hu. specialize (Hub u Hu). destruct (cell_surj rows cols u Hc Hub) as (Eu & Hc1 & Hd1). set (p := u / cols) in *; set (q := u mod cols) in *; clearbody p q; subst u.
      apply Hin in Hu; [|assumption|assumption]. rewrite (torus_ext rows cols _ _ _ _ _ _ (moore_crit r _)) in Hu.
      apply torus_sym in Hu; [|unfold moore_offset; lia|assumption|assumption].
      destruct Hu as (dx & dy & [Hdx Hdy] & E4 & E5). rewrite Z.mod_small in E4, E5 by lia. rewrite E4, E5.
      apply in_flat_map. exists dx. split; [apply in_zrange; lia|]. apply in_map_iff. exists dy. split; [reflexivity|apply in_zrange; lia].
    - intros Hu. apply in_flat_map in Hu. destruct Hu as (dx & Hdx & Hu). apply in_map_iff in Hu. destruct Hu as (dy & <- & Hdy).
      apply in_zrange in Hdx, Hdy. fold (cell cols (a + dx) (b + dy)). apply Hin; [lia|lia|].
      rewrite (torus_ext rows cols _ _ _ _ _ _ (moore_crit r _)). exists (- dx), (- dy).
      replace (a + dx + - dx) with a by lia. replace (b + dy + - dy) with b by lia. rewrite !Z.mod_small by lia.
      unfold moore_offset. lia. }
  rewrite El in *. transitivity (rot 0 (moore_window cols r a b)); [|unfold rot; cbn; apply app_nil_r].
  assert (Hlen : length (moore_window cols r a b) = (Z.to_nat (2 * r + 1) * Z.to_nat (2 * r + 1))%nat).
  { unfold moore_window. rewrite (length_flat_map_const _ _ (Z.to_nat (2 * r + 1))), length_zrange; [f_equal; lia|].
    intros x _. rewrite map_length, length_zrange. lia. }
  apply (rot_unique _ _ _ (length (moore_window cols r a b) / 2) (cell cols a b)); try assumption.
  - apply asc_NoDup. assumption.
  - lia.
  - apply Nat.div_lt; rewrite ?Hlen; nia.
  - unfold rot. cbn [skipn firstn]. rewrite app_nil_r, Hlen.
    set (m := Z.to_nat (2 * r + 1)). assert (Em : m = (Z.to_nat r * 2 + 1)%nat) by lia.
    replace (m * m / 2)%nat with (Z.to_nat r * m + Z.to_nat r)%nat.
    2:{ replace (m * m)%nat with ((Z.to_nat r * m + Z.to_nat r) * 2 + 1)%nat by nia. rewrite Nat.div_add_l by lia. cbn. lia. }
    unfold moore_window. rewrite nth_error_flat_map_const.
    + rewrite nth_error_zrange by lia. rewrite nth_error_map, nth_error_zrange by lia. cbn [option_map]. unfold cell.
      f_equal. rewrite !Z2Nat.id by lia. replace (- r + r) with 0 by lia. rewrite !Z.add_0_r. reflexivity.
    + intros x _. rewrite map_length, length_zrange. unfold m. f_equal. lia.
    + lia.
Qed.
