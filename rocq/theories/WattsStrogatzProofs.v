(** Watts-Strogatz networks: the ring, rewiring, and the network built from the adjacency matrix *)
From Verif Require Import Py PyFacts ListFacts Network NetworkSpec NetworkProofs NetworkProofs2 NetworkProofs3.
From Verif Require Import Topology TopologySpec TopologyProofs TopologyProofs2 TopologyProofs3 TopologyProofs4 TopologyProofs5 LatticeSpec Lattice LatticeProofs WattsStrogatzSpec WattsStrogatz.
Open Scope string_scope.
Open Scope list_scope.
Open Scope Z_scope.

Definition lists_ok (g : ugraph) : Prop := forall x (l : list Z), dget g x = Some l -> NoDup l.

Lemma has_edge_adj g u v : ug_has_edge g u v = true <-> adj g u v.
Proof.
  unfold ug_has_edge, adj. destruct (dget g u) as [l|]; [rewrite existsb_in; split; [eauto|intros (l' & E & Hv); congruence]|].
  split; [discriminate|]. intros (l' & E & _). discriminate.
Qed.
Lemma has_edge_nadj g u v : ug_has_edge g u v = false <-> ~ adj g u v.
Proof. rewrite <- has_edge_adj. destruct (ug_has_edge g u v); split; congruence. Qed.

Lemma add_node_spec g v : lists_ok g -> lists_ok (ug_add_node g v) /\ (forall x y, adj (ug_add_node g v) x y <-> adj g x y) /\
  In v (dkeys (ug_add_node g v)) /\ dkeys (ug_add_node g v) = (if dmem g v then dkeys g else dkeys g ++ [v]).
Proof.
  intros Hl. unfold ug_add_node. destruct (dmem g v) eqn:E.
  - split; [assumption|]. split; [reflexivity|]. split; [apply dmem_true; assumption|reflexivity].
  - assert (En : dget g v = None) by (unfold dmem in E; destruct (dget g v); [discriminate|reflexivity]). split; [|split; [|split]].
    + intros x l. rewrite dget_dset. destruct (eqd x v); [intros Hx; injection Hx as <-; constructor|apply Hl].
    + intros x y. unfold adj. rewrite dget_dset. destruct (eqd x v) as [->|]; [|reflexivity]. rewrite En. split; intros (l & Hx & Hy); [injection Hx as <-; destruct Hy|discriminate].
    + apply in_dkeys_dset. auto.
    + rewrite dkeys_dset, E. reflexivity.
Qed.

Lemma add_edge_spec g u v : lists_ok g -> lists_ok (ug_add_edge g u v) /\
  (forall x y, adj (ug_add_edge g u v) x y <-> adj g x y \/ (x = u /\ y = v) \/ (x = v /\ y = u)) /\
  dkeys (ug_add_edge g u v) = dkeys (ug_add_node (ug_add_node g u) v).
Proof.
  intros Hl. unfold ug_add_edge. destruct (add_node_spec g u Hl) as (Hl1 & Ha1 & Hi1 & Hk1). set (g1 := ug_add_node g u) in *.
  destruct (add_node_spec g1 v Hl1) as (Hl2 & Ha2 & Hi2 & Hk2). set (g2 := ug_add_node g1 v) in *.
  assert (Hu : In u (dkeys g2)) by (rewrite Hk2; destruct (dmem g1 v); [assumption|apply in_app_iff; auto]).
  destruct (link_spec g2 u v Hu Hl2) as [Hl3 Ha3]. destruct (link_spec (ug_link g2 u v) v u ltac:(rewrite link_keys; assumption) Hl3) as [Hl4 Ha4].
  split; [assumption|]. split; [|rewrite !link_keys; reflexivity]. intros x y. rewrite Ha4, Ha3, Ha2, Ha1. tauto.
Qed.

Definition add_all (es : list (Z * Z)) (g : ugraph) : ugraph := fold_left (fun g e => ug_add_edge g (fst e) (snd e)) es g.

Lemma add_all_spec es : forall g, lists_ok g -> lists_ok (add_all es g) /\ forall x y, adj (add_all es g) x y <-> adj g x y \/ In (x, y) es \/ In (y, x) es.
Proof.
  induction es as [|[a b] es IH]; intros g Hl; cbn [add_all fold_left fst snd]; [split; [assumption|cbn; tauto]|].
  destruct (add_edge_spec g a b Hl) as (Hl1 & Ha1 & _). destruct (IH _ Hl1) as [Hl2 Ha2]. split; [assumption|]. intros x y. unfold add_all in Ha2. rewrite Ha2, Ha1. cbn [In]. split.
  - intros [[Hx|[[-> ->]|[-> ->]]]|[Hx|Hx]]; auto.
  - intros [Hx|[[Hx|Hx]|[Hx|Hx]]]; auto; injection Hx as -> ->; auto.
Qed.

Lemma add_all_keys es : forall g, lists_ok g -> (forall e, In e es -> In (fst e) (dkeys g) /\ In (snd e) (dkeys g)) -> dkeys (add_all es g) = dkeys g.
Proof.
  induction es as [|[a b] es IH]; intros g Hl He; cbn [add_all fold_left fst snd]; [reflexivity|].
  destruct (He (a, b) (or_introl eq_refl)) as [Ha Hb]. cbn in Ha, Hb.
  assert (Ek : dkeys (ug_add_edge g a b) = dkeys g).
  { destruct (add_edge_spec g a b Hl) as (_ & _ & ->). unfold ug_add_node. rewrite (proj2 (dmem_true g a) Ha), (proj2 (dmem_true g b) Hb). reflexivity. }
  change (dkeys (add_all es (ug_add_edge g a b)) = dkeys g). rewrite IH; [assumption|apply add_edge_spec; assumption|]. intros e Hi. rewrite Ek. apply He. right. assumption.
Qed.

(** ** the ring *)
Lemma mod_wrap n u j : 0 <= u < n -> 0 <= j <= n -> (u + j) mod n = if u + j <? n then u + j else u + j - n.
Proof.
  intros Hu Hj. destruct (Z.ltb_spec (u + j) n); [apply Z.mod_small; lia|]. symmetry. apply Z.mod_unique with (q := 1); lia.
Qed.

Lemma ws_pairs_eq n j : 0 <= j <= n -> ws_pairs n j = map (fun u => (u, (u + j) mod n)) (zrange 0 n).
Proof.
  intros Hj. unfold ws_pairs.
  assert (E : zrange j n ++ zrange 0 j = map (fun u => (u + j) mod n) (zrange 0 n)).
  { rewrite (zrange_split 0 (n - j) n) by lia. rewrite map_app. f_equal.
    - replace (zrange j n) with (zrange (0 + j) ((n - j) + j)) by (f_equal; lia). rewrite zrange_shift. apply map_ext_in. intros u Hu. apply in_zrange in Hu. rewrite mod_wrap by lia. destruct (Z.ltb_spec (u + j) n); lia.
    - replace (zrange 0 j) with (zrange ((n - j) + (j - n)) (n + (j - n))) by (f_equal; lia). rewrite zrange_shift. apply map_ext_in. intros u Hu. apply in_zrange in Hu. rewrite mod_wrap by lia. destruct (Z.ltb_spec (u + j) n); lia. }
  rewrite E. clear E. induction (zrange 0 n) as [|x l IH]; [reflexivity|]. cbn [map combine]. rewrite IH. reflexivity.
Qed.

Lemma in_ws_pairs n j u v : 0 <= j <= n -> In (u, v) (ws_pairs n j) <-> 0 <= u < n /\ v = (u + j) mod n.
Proof.
  intros Hj. rewrite ws_pairs_eq by assumption. rewrite in_map_iff. split.
  - intros (x & E & Hx). injection E as -> <-. apply in_zrange in Hx. auto.
  - intros [Hu ->]. exists u. split; [reflexivity|]. apply in_zrange. assumption.
Qed.

Lemma ring_keys n : 2 <= n -> dkeys (add_all (ws_pairs n 1) []) = zrange 0 n.
Proof.
  intros Hn. assert (Hnil : lists_ok []) by (intros x l E; discriminate).
  assert (Hm : forall m, 1 <= m -> m <= n - 1 -> dkeys (add_all (map (fun u => (u, (u + 1) mod n)) (zrange 0 m)) []) = zrange 0 (m + 1)).
  { intros m Hm. pattern m. apply Zlt_lower_bound_ind with (z := 1); [|assumption]. clear m Hm. intros m IH Hm Hmn. destruct (Z.eq_dec m 1) as [->|Hne].
    - change (zrange 0 1) with [0]. unfold add_all. cbn [map fold_left fst snd]. rewrite Z.mod_small by lia. reflexivity.
    - rewrite zrange_snoc by lia. rewrite map_app. unfold add_all. rewrite fold_left_app. cbn [map fold_left fst snd]. fold (add_all (map (fun u => (u, (u + 1) mod n)) (zrange 0 (m - 1))) []).
      specialize (IH (m - 1) ltac:(lia) ltac:(lia)). replace (m - 1 + 1) with m in IH |- * by lia. set (g := add_all _ _) in *.
      assert (Hl : lists_ok g) by (apply add_all_spec; assumption).
      destruct (add_edge_spec g (m - 1) (m mod n) Hl) as (_ & _ & ->). rewrite (Z.mod_small m n) by lia.
      assert (E1 : ug_add_node g (m - 1) = g) by (unfold ug_add_node; rewrite (proj2 (dmem_true g (m - 1))) by (rewrite IH; apply in_zrange; lia); reflexivity). rewrite E1.
      destruct (add_node_spec g m Hl) as (_ & _ & _ & ->). rewrite (proj2 (dmem_false g m)) by (rewrite IH, in_zrange; lia).
      rewrite IH, (zrange_snoc 0 (m + 1)) by lia. replace (m + 1 - 1) with m by lia. reflexivity. }
  rewrite ws_pairs_eq by lia. pose proof (zrange_snoc 0 n ltac:(lia)) as Es. rewrite Es at 1. clear Es. rewrite map_app. unfold add_all at 1. rewrite fold_left_app. cbn [map].
  specialize (Hm (n - 1) ltac:(lia) ltac:(lia)). unfold add_all at 1 in Hm. replace (n - 1 + 1) with n in Hm |- * by lia.
  set (g := fold_left _ (map _ (zrange 0 (n - 1))) _) in *. assert (Hl : lists_ok g) by (apply add_all_spec; assumption).
  change (dkeys (add_all [(n - 1, n mod n)] g) = zrange 0 n). rewrite add_all_keys; [assumption|assumption|]. intros e [<-|[]]. cbn [fst snd]. rewrite Hm, !in_zrange, Z.mod_same by lia. lia.
Qed.

Section Ring.
  Variables n h : Z.
  Hypothesis Hh : 1 <= h.
  Hypothesis Hn : 2 * h < n.

  Definition ring_to (u j : Z) : Z := (u + j) mod n.

  Lemma ring_wiring : wiring n h ring_to.
  Proof.
    unfold wiring, wired, ring_to. split.
    - intros u j [Hu Hj]. rewrite mod_wrap by lia. destruct (Z.ltb_spec (u + j) n); lia.
    - intros u j u' j' [Hu Hj] [Hu' Hj'] Hx. rewrite !mod_wrap in Hx by lia. destruct (Z.ltb_spec (u + j) n), (Z.ltb_spec (u' + j') n); lia.
  Qed.

  (** the graph [g] joins exactly the partners of the wiring [to] *)
  Definition holds (g : ugraph) (to : Z -> Z -> Z) : Prop :=
    dkeys g = zrange 0 n /\ simple g /\ wiring n h to /\ forall a b, adj g a b <-> partners n h to a b.

  Lemma partners_bound to a b : wiring n h to -> partners n h to a b -> 0 <= a < n /\ 0 <= b < n /\ a <> b.
  Proof. intros [Hw _] (u & j & Hd & Hab). pose proof (Hw u j Hd). destruct Hd. destruct Hab as [[-> ->]|[-> ->]]; intuition congruence. Qed.
  Lemma partners_sym to a b : partners n h to a b -> partners n h to b a.
  Proof. intros (u & j & Hd & Hab). exists u, j. tauto. Qed.

  Lemma holds_intro g to : dkeys g = zrange 0 n -> lists_ok g -> wiring n h to -> (forall a b, adj g a b <-> partners n h to a b) -> holds g to.
  Proof.
    intros Hk Hl Hw Ha. split; [assumption|]. split; [|split; assumption]. split; [rewrite Hk; apply NoDup_zrange|]. split; [assumption|]. split.
    - intros u v. rewrite !Ha. apply partners_sym.
    - intros u v. rewrite Ha, Hk, !in_zrange. intros Hp. apply partners_bound in Hp; tauto.
  Qed.

  Lemma ring_holds k : k / 2 = h -> holds (ws_ring n k) ring_to.
  Proof.
    intros Hk. unfold ws_ring. rewrite Hk. change (ug_of [] (flat_map (ws_pairs n) (zrange 1 (h + 1)))) with (add_all (flat_map (ws_pairs n) (zrange 1 (h + 1))) []).
    assert (Hnil : lists_ok []) by (intros x l E; discriminate). destruct (add_all_spec (flat_map (ws_pairs n) (zrange 1 (h + 1))) [] Hnil) as [Hl Ha].
    apply holds_intro; [|assumption|apply ring_wiring|].
    - rewrite zrange_cons by lia. cbn [flat_map]. unfold add_all. rewrite fold_left_app. fold (add_all (ws_pairs n 1) []).
      change (dkeys (add_all (flat_map (ws_pairs n) (zrange (1 + 1) (h + 1))) (add_all (ws_pairs n 1) [])) = zrange 0 n).
      rewrite add_all_keys; [apply ring_keys; lia|apply add_all_spec; assumption|]. intros [u v] He. apply in_flat_map in He. destruct He as (j & Hj & He). apply in_zrange in Hj.
      apply in_ws_pairs in He; [|lia]. destruct He as [Hu ->]. rewrite ring_keys, !in_zrange by lia. cbn [fst snd]. split; [assumption|]. apply Z.mod_pos_bound. lia.
    - assert (Hin : forall a b, In (a, b) (flat_map (ws_pairs n) (zrange 1 (h + 1))) <-> exists j, wired n h a j /\ b = ring_to a j).
      { intros a b. rewrite in_flat_map. unfold wired, ring_to. split.
        - intros (j & Hj & He). apply in_zrange in Hj. apply in_ws_pairs in He; [|lia]. exists j. intuition lia.
        - intros (j & [Hu Hj] & ->). exists j. split; [apply in_zrange; lia|]. apply in_ws_pairs; [lia|]. auto. }
      intros a b. rewrite Ha, !Hin. unfold partners. split.
      + intros [(l & E & _)|[(j & Hd & ->)|(j & Hd & ->)]]; [discriminate|exists a, j; auto|exists b, j; auto].
      + intros (u & j & Hd & [[-> ->]|[-> ->]]); right; [left|right]; eauto.
  Qed.

  (** ** rewiring *)
  Definition busy (g : ugraph) (u w : Z) : Prop := w = u \/ adj g u w.
  Lemma busy_test g u w : (w =? u) || ug_has_edge g u w = true <-> busy g u w.
  Proof. unfold busy. rewrite orb_true_iff, Z.eqb_eq, has_edge_adj. reflexivity. Qed.
  Lemma free_test g u w : (w =? u) || ug_has_edge g u w = false <-> ~ busy g u w.
  Proof. rewrite <- busy_test. destruct (_ || _); split; congruence. Qed.

  Lemma redraw_spec pick g u fuel : forall i ow i', redraw fuel n pick g u (pick i mod n) (S i) = Ok (ow, i') ->
    match ow with
    | Some w => exists m, (i <= m)%nat /\ i' = S m /\ w = pick m mod n /\ ~ busy g u w /\ forall l, (i <= l < m)%nat -> busy g u (pick l mod n)
    | None => n - 1 <= ug_degree g u
    end.
  Proof.
    induction fuel as [|fuel IH]; intros i ow i' E; cbn [redraw] in E; destruct (_ || _) eqn:Eb.
    - discriminate.
    - injection E as <- <-. apply free_test in Eb. exists i. repeat split; auto. intros l Hl. lia.
    - destruct (Z.leb_spec (n - 1) (ug_degree g u)); [injection E as <- <-; assumption|]. apply busy_test in Eb. apply IH in E. destruct ow as [w|]; [|assumption].
      destruct E as (m & Hm & -> & -> & Hb & Hl). exists m. repeat split; auto; [lia|]. intros l Hx. destruct (Nat.eq_dec l i) as [->|]; [assumption|apply Hl; lia].
    - injection E as <- <-. apply free_test in Eb. exists i. repeat split; auto. intros l Hl. lia.
  Qed.

  Lemma redraw_err pick g u fuel : forall i w e, redraw fuel n pick g u w i = Err e -> e = OutOfFuel.
  Proof.
    induction fuel as [|fuel IH]; intros i w e E; cbn [redraw] in E; destruct (_ || _); try discriminate; [congruence|]. destruct (_ <=? _); [discriminate|]. eapply IH. exact E.
  Qed.
  Lemma redraw_mono pick g u fuel d : forall i w r, redraw fuel n pick g u w i = Ok r -> redraw (fuel + d) n pick g u w i = Ok r.
  Proof.
    induction fuel as [|fuel IH]; intros i w r E; cbn [redraw Nat.add] in *.
    - destruct d; cbn [redraw]; destruct (_ || _); [discriminate|assumption|discriminate|assumption].
    - destruct (_ || _); [|assumption]. destruct (_ <=? _); [assumption|]. apply IH. assumption.
  Qed.

  Lemma redraw_finds pick g u m : ~ busy g u (pick m mod n) -> forall i, (i <= m)%nat -> exists r, redraw (m - i) n pick g u (pick i mod n) (S i) = Ok r.
  Proof.
    intros Hf i Hi. remember (m - i)%nat as d eqn:Ed. revert i Hi Ed. induction d as [|d IH]; intros i Hi Ed.
    - assert (i = m) by lia. subst i. cbn [redraw]. rewrite (proj2 (free_test _ _ _) Hf). eauto.
    - cbn [redraw]. destruct (_ || _); [|eauto]. destruct (_ <=? _); [eauto|]. apply IH; lia.
  Qed.

  Lemma unlink_spec g u v : lists_ok g -> lists_ok (ug_unlink g u v) /\ dkeys (ug_unlink g u v) = dkeys g /\ forall x y, adj (ug_unlink g u v) x y <-> adj g x y /\ ~ (x = u /\ y = v).
  Proof.
    intros Hl. unfold ug_unlink. destruct (dget g u) as [l|] eqn:E.
    - split; [|split].
      + intros x l'. rewrite dget_dset. destruct (eqd x u); [|apply Hl]. intros Hx. injection Hx as <-. apply NoDup_filter. eapply Hl. exact E.
      + rewrite dkeys_dset. unfold dmem. rewrite E. reflexivity.
      + intros x y. unfold adj. rewrite dget_dset. destruct (eqd x u) as [->|Hne].
        * split.
          -- intros (l' & Hx & Hy). injection Hx as <-. apply filter_In in Hy. destruct Hy as [Hy Hv]. apply negb_true_iff, Z.eqb_neq in Hv. split; [eauto|]. tauto.
          -- intros ((l' & Hx & Hy) & Hv). eexists. split; [reflexivity|]. apply filter_In. split; [congruence|]. apply negb_true_iff, Z.eqb_neq. tauto.
        * tauto.
    - split; [assumption|]. split; [reflexivity|]. intros x y. split; [|tauto]. intros Ha. split; [assumption|]. intros [-> ->]. destruct Ha as (l & E' & _). congruence.
  Qed.

  Lemma remove_spec g u v : simple g -> adj g u v -> exists g', ug_remove_edge g u v = Ok g' /\ lists_ok g' /\ dkeys g' = dkeys g /\
    forall x y, adj g' x y <-> adj g x y /\ ~ (x = u /\ y = v) /\ ~ (x = v /\ y = u).
  Proof.
    intros (_ & Hl & _) Ha. unfold ug_remove_edge. rewrite (proj2 (has_edge_adj g u v) Ha). eexists. split; [reflexivity|]. cbv zeta.
    destruct (unlink_spec g u v Hl) as (Hl1 & Hk1 & Ha1). destruct (Z.eqb_spec u v) as [->|Hne].
    - split; [assumption|]. split; [assumption|]. intros x y. rewrite Ha1. tauto.
    - destruct (unlink_spec (ug_unlink g u v) v u Hl1) as (Hl2 & Hk2 & Ha2). split; [assumption|]. split; [congruence|]. intros x y. rewrite Ha2, Ha1. tauto.
  Qed.

  Definition upd (to : Z -> Z -> Z) (u j w : Z) : Z -> Z -> Z := fun u' j' => if (u' =? u) && (j' =? j) then w else to u' j'.
  Lemma upd_same to u j w : upd to u j w u j = w.
  Proof. unfold upd. rewrite !Z.eqb_refl. reflexivity. Qed.
  Lemma upd_other to u j w u' j' : ~ (u' = u /\ j' = j) -> upd to u j w u' j' = to u' j'.
  Proof. unfold upd. intros Hx. destruct (Z.eqb_spec u' u), (Z.eqb_spec j' j); try reflexivity. tauto. Qed.

  Lemma move_spec g to u j w : holds g to -> wired n h u j -> 0 <= w < n -> ~ busy g u w ->
    exists g', ug_remove_edge g u (to u j) = Ok g' /\ holds (ug_add_edge g' u w) (upd to u j w) /\
      forall x y, adj (ug_add_edge g' u w) x y <-> (adj g x y /\ ~ (x = u /\ y = to u j) /\ ~ (x = to u j /\ y = u)) \/ (x = u /\ y = w) \/ (x = w /\ y = u).
  Proof.
    intros (Hk & Hs & Hw & Ha) Hd Hwn Hb. assert (Huv : adj g u (to u j)) by (apply Ha; exists u, j; auto).
    destruct (remove_spec g u (to u j) Hs Huv) as (g' & E & Hl' & Hk' & Ha'). exists g'. split; [assumption|].
    destruct (add_edge_spec g' u w Hl') as (Hl2 & Ha2 & Hk2).
    assert (Hadj : forall x y, adj (ug_add_edge g' u w) x y <-> (adj g x y /\ ~ (x = u /\ y = to u j) /\ ~ (x = to u j /\ y = u)) \/ (x = u /\ y = w) \/ (x = w /\ y = u)) by (intros x y; rewrite Ha2, Ha'; reflexivity).
    split; [|assumption]. destruct Hw as [Hw1 Hw2].
    assert (Hfree : forall u' j', wired n h u' j' -> ~ ((u = u' /\ w = to u' j') \/ (u = to u' j' /\ w = u'))).
    { intros u' j' Hd' Hx. apply Hb. right. apply Ha. exists u', j'. split; [assumption|]. tauto. }
    apply holds_intro.
    - rewrite Hk2. unfold ug_add_node. assert (Hm : forall x, 0 <= x < n -> dmem g' x = true) by (intros x Hx; apply dmem_true; rewrite Hk', Hk; apply in_zrange; assumption).
      rewrite (Hm u) by apply Hd. rewrite (Hm w) by assumption. congruence.
    - assumption.
    - split.
      + intros u' j' Hd'. unfold upd. destruct (Z.eqb_spec u' u) as [->|], (Z.eqb_spec j' j) as [->|]; cbn [andb]; try (apply Hw1; assumption). split; [assumption|]. intros ->. apply Hb. left. reflexivity.
      + intros u1 j1 u2 j2 H1 H2.
        assert (Hdec : forall a b, (a = u /\ b = j) \/ ~ (a = u /\ b = j)) by (intros a b; destruct (Z.eq_dec a u), (Z.eq_dec b j); tauto).
        destruct (Hdec u1 j1) as [[-> ->]|N1], (Hdec u2 j2) as [[-> ->]|N2].
        * tauto.
        * rewrite upd_same, (upd_other _ _ _ _ _ _ N2). intros Hx. exfalso. apply (Hfree u2 j2 H2). exact Hx.
        * rewrite upd_same, (upd_other _ _ _ _ _ _ N1). intros Hx. exfalso. apply (Hfree u1 j1 H1). intuition congruence.
        * rewrite !upd_other by assumption. apply Hw2; assumption.
    - intros a b. rewrite Hadj, Ha. split.
      + intros [((u' & j' & Hd' & Hx) & Hy1 & Hy2)|Hx].
        * assert (N : ~ (u' = u /\ j' = j)) by (intros [-> ->]; tauto). exists u', j'. split; [assumption|]. rewrite upd_other by assumption. assumption.
        * exists u, j. split; [assumption|]. rewrite upd_same. tauto.
      + intros (u' & j' & Hd' & Hx). destruct (Z.eq_dec u' u) as [E1|N1], (Z.eq_dec j' j) as [E2|N2]; [subst; rewrite upd_same in Hx; right; tauto| | |]; rewrite upd_other in Hx by tauto; left;
          (split; [exists u', j'; auto|]); assert (HN : ~ ((u' = u /\ to u' j' = to u j) \/ (u' = to u j /\ to u' j' = u))) by (intros Hy; destruct (Hw2 u' j' u j Hd' Hd Hy); tauto);
          clear - Hx HN; split; intros [E3 E4]; apply HN; destruct Hx as [[E5 E6]|[E5 E6]]; first [left; split; congruence | right; split; congruence].
  Qed.

  Lemma rewire_step fuel coin pick g to i u j : holds g to -> wired n h u j ->
    match rewire fuel n coin pick j (g, i) (u, to u j) with
    | Ok (g', i') => exists to', holds g' to' /\ forall u' j', to' u' j' = to u' j' \/ (u' = u /\ j' = j /\ coin j u = true)
    | Err e => e = OutOfFuel
    end.
  Proof.
    intros Hg Hd. unfold rewire. destruct (coin j u) eqn:Ec; [|exists to; auto].
    destruct (redraw fuel n pick g u (pick i mod n) (S i)) as [[ow i']|e] eqn:Er; cbn [rbind]; [|eapply redraw_err; exact Er].
    apply redraw_spec in Er. destruct ow as [w|]; [|exists to; auto]. destruct Er as (m & _ & _ & -> & Hf & _).
    destruct (move_spec g to u j (pick m mod n) Hg Hd ltac:(apply Z.mod_pos_bound; lia) Hf) as (g' & -> & Hg' & _). cbn [rbind]. exists (upd to u j (pick m mod n)). split; [assumption|].
    intros u' j'. unfold upd. destruct (Z.eqb_spec u' u), (Z.eqb_spec j' j); cbn [andb]; auto.
  Qed.

  Lemma free_exists g to u : holds g to -> 0 <= u < n -> ug_degree g u < n - 1 -> exists w, 0 <= w < n /\ ~ busy g u w.
  Proof.
    intros (Hk & Hs & Hw & Ha) Hu Hdeg. destruct (dget_key_some g u) as [l El]; [rewrite Hk; apply in_zrange; assumption|].
    unfold ug_degree in Hdeg. rewrite El in Hdeg.
    destruct (Exists_dec (fun w => ~ In w (u :: l)) (zrange 0 n)) as [Hx|Hx].
    - intros w. destruct (in_dec Z.eq_dec w (u :: l)); [right|left]; tauto.
    - apply Exists_exists in Hx. destruct Hx as (w & Hwn & Hx). apply in_zrange in Hwn. exists w. split; [assumption|]. intros [->|(l' & E & Hl)]; apply Hx; [left; reflexivity|right; congruence].
    - exfalso. assert (Hincl : incl (zrange 0 n) (u :: l)).
      { intros w Hwn. destruct (in_dec Z.eq_dec w (u :: l)) as [Hi|Hi]; [assumption|]. exfalso. apply Hx, Exists_exists. eauto. }
      apply NoDup_incl_length in Hincl; [|apply NoDup_zrange]. rewrite length_zrange in Hincl. cbn [length] in Hincl. destruct (existsb (Z.eqb u) l); lia.
  Qed.

  Lemma rewire_finishes coin pick g to i u j : keeps_drawing n pick -> holds g to -> wired n h u j -> exists fuel r, rewire fuel n coin pick j (g, i) (u, to u j) = Ok r.
  Proof.
    intros Hp Hg Hd. destruct (coin j u) eqn:Ec; [|exists O; unfold rewire; rewrite Ec; eauto].
    assert (Hr : exists fuel r, redraw fuel n pick g u (pick i mod n) (S i) = Ok r).
    { destruct (Z.le_gt_cases (n - 1) (ug_degree g u)) as [Hdeg|Hdeg].
      - exists 1%nat. cbn [redraw]. destruct (_ || _); [|eauto]. rewrite (proj2 (Z.leb_le _ _) Hdeg). eauto.
      - destruct (free_exists g to u Hg ltac:(apply Hd) Hdeg) as (w & Hw & Hf). destruct (Hp w i Hw) as (m & Hm & <-). destruct (redraw_finds pick g u m Hf i Hm) as [r Er]. eauto. }
    destruct Hr as (fuel & [ow i'] & Er). exists fuel. unfold rewire. rewrite Ec, Er. cbn [rbind]. apply redraw_spec in Er. destruct ow as [w|]; [|eauto].
    destruct Er as (m & _ & _ & -> & Hf & _). destruct (move_spec g to u j (pick m mod n) Hg Hd ltac:(apply Z.mod_pos_bound; lia) Hf) as (g' & -> & _). cbn [rbind]. eauto.
  Qed.

  Lemma rewire_mono fuel d coin pick j st e r : rewire fuel n coin pick j st e = Ok r -> rewire (fuel + d) n coin pick j st e = Ok r.
  Proof.
    unfold rewire. destruct st as [g i], e as [u v]. destruct (coin j u); [|auto]. destruct (redraw fuel n pick g u (pick i mod n) (S i)) as [r0|] eqn:Er; [|discriminate]. rewrite (redraw_mono _ _ _ _ d _ _ _ Er). auto.
  Qed.

  (** ** all the steps *)
  Definition steps (js : list Z) : list (Z * (Z * Z)) := flat_map (fun j => map (fun e => (j, e)) (ws_pairs n j)) js.
  Definition step fuel coin pick (st : ugraph * nat) (x : Z * (Z * Z)) := rewire fuel n coin pick (fst x) st (snd x).

  Lemma nest_eq fuel coin pick js : forall st, rfold (fun st j => rfold (rewire fuel n coin pick j) (ws_pairs n j) st) js st = rfold (step fuel coin pick) (steps js) st.
  Proof.
    induction js as [|j js IH]; intros st; [reflexivity|]. cbn [rfold steps flat_map]. rewrite rfold_app. fold (steps js).
    assert (E : forall l st, rfold (step fuel coin pick) (map (fun e => (j, e)) l) st = rfold (rewire fuel n coin pick j) l st).
    { induction l as [|e l IHl]; intros s; [reflexivity|]. cbn [map rfold]. unfold step at 1. cbn [fst snd]. destruct (rewire fuel n coin pick j s e); cbn [rbind]; [apply IHl|reflexivity]. }
    rewrite E. destruct (rfold (rewire fuel n coin pick j) (ws_pairs n j) st); cbn [rbind]; [apply IH|reflexivity].
  Qed.

  Definition slot (x : Z * (Z * Z)) : Z * Z := (fst x, fst (snd x)).
  Definition pending (to : Z -> Z -> Z) (l : list (Z * (Z * Z))) : Prop := NoDup (map slot l) /\ forall j u v, In (j, (u, v)) l -> wired n h u j /\ v = to u j.

  Lemma steps_pending js : NoDup js -> (forall j, In j js -> 1 <= j <= h) -> pending ring_to (steps js).
  Proof.
    intros Hnd Hj. split.
    - induction js as [|j js IH]; [constructor|]. apply NoDup_cons_iff in Hnd. destruct Hnd as [Hx Hnd]. cbn [steps flat_map]. rewrite map_app. apply NoDup_app_disj.
      + rewrite map_map. unfold slot. cbn [fst snd]. rewrite ws_pairs_eq by (specialize (Hj j (or_introl eq_refl)); lia). rewrite map_map. cbn [fst].
        apply FinFun.Injective_map_NoDup; [intros x y E; injection E as ->; reflexivity|apply NoDup_zrange].
      + apply IH; [assumption|]. intros x Hi. apply Hj. right. assumption.
      + intros [j1 u1] H1 H2. apply in_map_iff in H1, H2. destruct H1 as (x1 & E1 & H1), H2 as (x2 & E2 & H2). apply in_map_iff in H1. destruct H1 as (e & <- & _). unfold slot in E1. cbn in E1. injection E1 as <- <-.
        apply in_flat_map in H2. destruct H2 as (j2 & Hj2 & H2). apply in_map_iff in H2. destruct H2 as (e' & <- & _). unfold slot in E2. cbn in E2. injection E2 as -> _. contradiction.
    - intros j u v Hi. apply in_flat_map in Hi. destruct Hi as (j' & Hj' & Hi). apply in_map_iff in Hi. destruct Hi as (e & E & Hi). injection E as -> ->. specialize (Hj j Hj'). apply in_ws_pairs in Hi; [|lia]. destruct Hi as [Hu ->]. split; [split; assumption|reflexivity].
  Qed.

  Lemma pending_next to to' j u v l c : pending to ((j, (u, v)) :: l) -> (forall u' j', to' u' j' = to u' j' \/ (u' = u /\ j' = j /\ c)) -> pending to' l.
  Proof.
    intros [Hnd Hp] Ht. cbn [map] in Hnd. apply NoDup_cons_iff in Hnd. destruct Hnd as [Hx Hnd]. split; [assumption|]. intros j' u' v' Hi. destruct (Hp j' u' v' (or_intror Hi)) as [Hd ->]. split; [assumption|].
    destruct (Ht u' j') as [->|(-> & -> & _)]; [reflexivity|]. exfalso. apply Hx. apply in_map_iff. eexists. split; [|exact Hi]. reflexivity.
  Qed.

  Lemma run_spec fuel coin pick l : forall g to i, holds g to -> pending to l ->
    match rfold (step fuel coin pick) l (g, i) with
    | Ok (g', i') => exists to', holds g' to' /\ forall u j, to' u j = to u j \/ coin j u = true
    | Err e => e = OutOfFuel
    end.
  Proof.
    induction l as [|[j [u v]] l IH]; intros g to i Hg Hp; cbn [rfold]; [exists to; auto|]. unfold step at 1. cbn [fst snd].
    destruct Hp as [Hnd Hp'] eqn:Eq. clear Eq. destruct (Hp' j u v (or_introl eq_refl)) as [Hd ->]. pose proof (rewire_step fuel coin pick g to i u j Hg Hd) as Hs.
    destruct (rewire fuel n coin pick j (g, i) (u, to u j)) as [[g1 i1]|e]; cbn [rbind]; [|assumption]. destruct Hs as (to1 & Hg1 & Ht1).
    specialize (IH g1 to1 i1 Hg1 (pending_next to to1 j u (to u j) l _ (conj Hnd Hp') Ht1)).
    destruct (rfold (step fuel coin pick) l (g1, i1)) as [[g2 i2]|e]; [|assumption]. destruct IH as (to2 & Hg2 & Ht2). exists to2. split; [assumption|]. intros u' j'.
    destruct (Ht2 u' j') as [->|Hc]; [|auto]. destruct (Ht1 u' j') as [->|(-> & -> & Hc)]; auto.
  Qed.

  Lemma run_mono fuel d coin pick l : forall st r, rfold (step fuel coin pick) l st = Ok r -> rfold (step (fuel + d) coin pick) l st = Ok r.
  Proof.
    induction l as [|x l IH]; intros st r E; cbn [rfold] in *; [assumption|]. unfold step at 1 in E. unfold step at 1. destruct (rewire fuel n coin pick (fst x) st (snd x)) as [st1|] eqn:E1; [|discriminate].
    rewrite (rewire_mono _ d _ _ _ _ _ _ E1). cbn [rbind] in *. apply IH. assumption.
  Qed.

  Lemma run_finishes coin pick l : keeps_drawing n pick -> forall g to i, holds g to -> pending to l -> exists fuel r, rfold (step fuel coin pick) l (g, i) = Ok r.
  Proof.
    intros Hk. induction l as [|[j [u v]] l IH]; intros g to i Hg Hp; [exists O; cbn; eauto|].
    destruct Hp as [Hnd Hp'] eqn:Eq. clear Eq. destruct (Hp' j u v (or_introl eq_refl)) as [Hd ->]. destruct (rewire_finishes coin pick g to i u j Hk Hg Hd) as (f1 & [g1 i1] & E1).
    pose proof (rewire_step f1 coin pick g to i u j Hg Hd) as Hs. rewrite E1 in Hs. destruct Hs as (to1 & Hg1 & Ht1).
    destruct (IH g1 to1 i1 Hg1 (pending_next to to1 j u (to u j) l _ (conj Hnd Hp') Ht1)) as (f2 & r & E2).
    exists (f1 + f2)%nat, r. cbn [rfold]. unfold step at 1. cbn [fst snd]. rewrite (rewire_mono _ f2 _ _ _ _ _ _ E1). cbn [rbind]. rewrite Nat.add_comm. apply run_mono. assumption.
  Qed.

  Lemma ws_graph_spec fuel coin pick k : k / 2 = h ->
    match ws_graph fuel coin pick n k with
    | Ok g => exists to, holds g to /\ forall u j, to u j = ring_to u j \/ coin j u = true
    | Err e => e = OutOfFuel
    end.
  Proof.
    intros Hk. unfold ws_graph. rewrite nest_eq, Hk. pose proof (run_spec fuel coin pick (steps (zrange 1 (h + 1))) (ws_ring n k) ring_to O (ring_holds k Hk)) as Hr.
    specialize (Hr (steps_pending (zrange 1 (h + 1)) (NoDup_zrange _ _) ltac:(intros j Hj; apply in_zrange in Hj; lia))). destruct (rfold _ _ _) as [[g i]|e]; cbn [rbind]; assumption.
  Qed.
  Lemma ws_graph_finishes coin pick k : k / 2 = h -> keeps_drawing n pick -> exists fuel g, ws_graph fuel coin pick n k = Ok g.
  Proof.
    intros Hk Hp. destruct (run_finishes coin pick (steps (zrange 1 (h + 1))) Hp (ws_ring n k) ring_to O (ring_holds k Hk)) as (fuel & [g i] & E).
    { apply steps_pending; [apply NoDup_zrange|]. intros j Hj. apply in_zrange in Hj. lia. }
    exists fuel, g. unfold ws_graph. rewrite nest_eq, Hk, E. reflexivity.
  Qed.

  (** ** the network *)
  Definition matrix_of (g : ugraph) : list (list Z) := map (fun u => map (fun v => if ug_has_edge g u v then 1 else 0) (dkeys g)) (dkeys g).
  Lemma adjacency_ok g to : holds g to -> ug_adjacency g = Ok (matrix_of g).
  Proof. intros (Hk & _). destruct g as [|x g]; [|reflexivity]. cbn in Hk. rewrite zrange_cons in Hk by lia. discriminate. Qed.

  Lemma matrix_nonzero g to i j : holds g to -> nonzero_at nzb (matrix_of g) i j = if ug_has_edge g i j then Some 1 else None.
  Proof.
    intros (Hk & Hs & Hw & Ha).
    assert (Hout : ~ (0 <= i < n /\ 0 <= j < n) -> ug_has_edge g i j = false) by (intros Hx; apply has_edge_nadj; rewrite Ha; intros Hp; apply partners_bound in Hp; tauto).
    unfold nonzero_at. destruct (Z.leb_spec 0 i), (Z.leb_spec 0 j); cbn [andb]; try (rewrite Hout by lia; reflexivity).
    unfold at_, matrix_of. rewrite Hk, nth_error_map. destruct (Z.lt_ge_cases i n) as [Hi|Hi].
    - rewrite nth_error_zrange by lia. cbn [option_map]. rewrite nth_error_map. destruct (Z.lt_ge_cases j n) as [Hj|Hj].
      + rewrite nth_error_zrange by lia. cbn [option_map]. rewrite !Z.add_0_l, !Z2Nat.id by lia. destruct (ug_has_edge g i j); reflexivity.
      + rewrite (proj2 (nth_error_None _ _)) by (rewrite length_zrange; lia). cbn [option_map]. rewrite Hout by lia. reflexivity.
    - rewrite (proj2 (nth_error_None _ _)) by (rewrite length_zrange; lia). cbn [option_map]. rewrite Hout by lia. reflexivity.
  Qed.

  Lemma betw_nodup {V} (l : list (Z * Z * dict string V)) : (forall i j, (length (betw l i j) <= 1)%nat) -> NoDup (map fst l).
  Proof.
    induction l as [|[[a b] x] l IH]; intros Hb; cbn [map]; [constructor|]. constructor.
    - intros Hi. apply in_map_iff in Hi. destruct Hi as ([[a' b'] x'] & E & Hi). cbn in E. injection E as -> ->. specialize (Hb a b). rewrite betw_cons in Hb. cbn [src tgt fst snd] in Hb. rewrite !eqb_refl in Hb. cbn [andb app length] in Hb.
      assert (Hin : In x' (betw l a b)). { unfold betw. apply in_map_iff. exists (a, b, x'). split; [reflexivity|]. apply filter_In. split; [assumption|]. cbn [src tgt fst snd]. rewrite !eqb_refl. reflexivity. }
      destruct (betw l a b); [destruct Hin|]. cbn [length] in Hb. lia.
    - apply IH. intros i j. specialize (Hb i j). rewrite betw_cons in Hb. destruct (_ && _); cbn [length] in Hb; lia.
  Qed.

  Lemma network_spec g to net : holds g to -> from_adjacency_matrix nzb (matrix_of g) = (net, Ok tt) ->
    net_rot net = None /\ NoDup (nodes net) /\ (forall v, In v (nodes net) <-> 0 <= v < n) /\
    (forall a b, (partners n h to a b -> edge net a b = Ok [[("weight", 1)]]) /\ (~ partners n h to a b -> edge net a b = Err KeyError)) /\
    Z.of_nat (length (edges net)) = 2 * (n * h) /\
    forall u, 0 <= u < n -> exists d, out_degree net u = Ok d /\ in_degree net u = Ok d /\ h <= d.
  Proof.
    intros Hg E. destruct (from_adj_R nzb (matrix_of g)) as (net' & E' & HR & Hrot). rewrite E in E'. injection E' as <-. split; [assumption|]. split; [exact (R_NoDup _ _ HR)|].
    pose proof (matrix_nonzero g to) as Hnz. pose proof Hg as (Hk & Hs & Hw & Ha).
    assert (Hp : forall a b, nonzero_at nzb (matrix_of g) a b <> None <-> partners n h to a b).
    { intros a b. rewrite (Hnz a b Hg), <- Ha, <- has_edge_adj. destruct (ug_has_edge g a b); split; congruence. }
    assert (Hp1 : forall a b, partners n h to a b -> nonzero_at nzb (matrix_of g) a b = Some 1).
    { intros a b Hx. rewrite (Hnz a b Hg). apply Ha, has_edge_adj in Hx. rewrite Hx. reflexivity. }
    assert (Hnode : forall v, 0 <= v < n -> partners n h to v (to v 1)) by (intros v Hv; exists v, 1; split; [split; [assumption|lia]|auto]).
    assert (Hnodes : forall v, In v (nodes net) <-> 0 <= v < n).
    { intros v. rewrite (nodes_R _ _ HR). change (In v (map fst (g_nodes (graph_of (adj_edges nzb (matrix_of g)))))) with (is_node (graph_of (adj_edges nzb (matrix_of g))) v).
      rewrite node_adj. split.
      - intros (w & [Hx|Hx]); apply Hp in Hx; apply partners_bound in Hx; tauto.
      - intros Hv. exists (to v 1). left. apply Hp, Hnode. assumption. }
    split; [assumption|]. set (es := adj_edges nzb (matrix_of g)) in *.
    assert (Hbetw : forall a b, betw es a b = match nonzero_at nzb (matrix_of g) a b with Some v => [[("weight", v)]] | None => [] end) by (intros a b; apply betw_adj).
    assert (Hin : forall a b x, In (a, b, x) es <-> partners n h to a b /\ x = [("weight", 1)]).
    { intros a b x. assert (Hi : In (a, b, x) es <-> In x (betw es a b)).
      { unfold betw. rewrite in_map_iff. split.
        - intros Hx. exists (a, b, x). split; [reflexivity|]. apply filter_In. split; [assumption|]. cbn [src tgt fst snd]. rewrite !eqb_refl. reflexivity.
        - intros ([[a' b'] x'] & Ex & Hx). apply filter_In in Hx. destruct Hx as [Hx Hy]. cbn [src tgt dat fst snd] in *. apply andb_true_iff in Hy. destruct Hy as [Hy1 Hy2]. apply eqb_eq in Hy1, Hy2. subst. assumption. }
      rewrite Hi, Hbetw. split.
      - destruct (nonzero_at nzb (matrix_of g) a b) as [v|] eqn:Ev; [|intros []]. assert (Hab : partners n h to a b) by (apply Hp; congruence). rewrite (Hp1 _ _ Hab) in Ev. injection Ev as <-. intros [<-|[]]. auto.
      - intros [Hab ->]. rewrite (Hp1 _ _ Hab). left. reflexivity. }
    assert (Hnd : NoDup es).
    { apply (NoDup_map_inv fst). apply betw_nodup. intros i j. rewrite Hbetw. destruct (nonzero_at _ _ _ _); cbn; lia. }
    split; [|split].
    - intros a b. rewrite (edge_R _ _ a b HR). change (between (graph_of es) a b) with (betw es a b). rewrite Hbetw. split.
      + intros Hx. rewrite (Hp1 _ _ Hx). reflexivity.
      + intros Hx. destruct (nonzero_at nzb (matrix_of g) a b) eqn:Ev; [|reflexivity]. exfalso. apply Hx, Hp. congruence.
    - rewrite (Permutation_length (edges_R _ _ HR)). change (g_edges (graph_of es)) with es.
      set (own := flat_map (fun u => flat_map (fun j => [(u, to u j, [("weight", 1)]); (to u j, u, [("weight", 1)])]) (zrange 1 (h + 1))) (zrange 0 n)).
      assert (Hperm : Permutation es own).
      { apply NoDup_Permutation; [assumption| |].
        - destruct Hw as [Hw1 Hw2]. unfold own.
          assert (Hgen : forall us, NoDup us -> (forall u, In u us -> 0 <= u < n) -> NoDup (flat_map (fun u => flat_map (fun j => [(u, to u j, [("weight", 1)]); (to u j, u, [("weight", 1)])]) (zrange 1 (h + 1))) us)).
          { assert (Hrow : forall u js, 0 <= u < n -> NoDup js -> (forall j, In j js -> 1 <= j <= h) -> NoDup (flat_map (fun j => [(u, to u j, [("weight", 1)]); (to u j, u, [("weight", 1)])]) js)).
            { intros u js Hu. induction js as [|j js IH]; intros Hj Hjs; [constructor|]. apply NoDup_cons_iff in Hj. destruct Hj as [Hj1 Hj2]. cbn [flat_map].
              assert (Hd : wired n h u j) by (split; [assumption|apply Hjs; left; reflexivity]). apply NoDup_app_disj.
              - constructor; [|constructor; [intros []|constructor]]. intros [Hx|[]]. injection Hx as Hx _. apply (proj2 (Hw1 u j Hd)). congruence.
              - apply IH; [assumption|]. intros x Hx. apply Hjs. right. assumption.
              - intros e He Hf. apply in_flat_map in Hf. destruct Hf as (j' & Hj' & Hf). assert (Hd' : wired n h u j') by (split; [assumption|apply Hjs; right; assumption]).
                assert (Hjj : j = j'); [|congruence]. apply (Hw2 u j u j' Hd Hd').
                destruct He as [<-|[<-|[]]], Hf as [Hf|[Hf|[]]]; injection Hf; intros; [left|right|right|left]; split; congruence. }
            induction us as [|u us IH]; intros Hu Hus; [constructor|]. apply NoDup_cons_iff in Hu. destruct Hu as [Hu1 Hu2]. cbn [flat_map]. apply NoDup_app_disj.
            - apply Hrow; [apply Hus; left; reflexivity|apply NoDup_zrange|]. intros j Hj. apply in_zrange in Hj. lia.
            - apply IH; [assumption|]. intros x Hx. apply Hus. right. assumption.
            - intros e He Hf. apply in_flat_map in He, Hf. destruct He as (j & Hj & He), Hf as (u' & Hu' & Hf). apply in_flat_map in Hf. destruct Hf as (j' & Hj' & Hf). apply in_zrange in Hj, Hj'.
              assert (Hd : wired n h u j) by (split; [apply Hus; left; reflexivity|lia]). assert (Hd' : wired n h u' j') by (split; [apply Hus; right; assumption|lia]).
              assert (Huu : u = u'); [|congruence]. apply (Hw2 u j u' j' Hd Hd').
              destruct He as [<-|[<-|[]]], Hf as [Hf|[Hf|[]]]; injection Hf; intros; [left|right|right|left]; split; congruence. }
          apply Hgen; [apply NoDup_zrange|]. intros u Hu. apply in_zrange in Hu. assumption.
        - intros [[a b] x]. rewrite Hin. unfold own. rewrite in_flat_map. split.
          + intros [(u & j & [Hu Hj] & Hab) ->]. exists u. split; [apply in_zrange; assumption|]. apply in_flat_map. exists j. split; [apply in_zrange; lia|]. destruct Hab as [[-> ->]|[-> ->]]; cbn; auto.
          + intros (u & Hu & Hx). apply in_flat_map in Hx. destruct Hx as (j & Hj & Hx). apply in_zrange in Hu, Hj. assert (Hd : wired n h u j) by (split; lia).
            destruct Hx as [Hx|[Hx|[]]]; injection Hx as <- <- <-; (split; [exists u, j; auto|reflexivity]). }
      rewrite (Permutation_length Hperm). unfold own.
      assert (Hlen : forall us, length (flat_map (fun u => flat_map (fun j => [(u, to u j, [("weight", 1)]); (to u j, u, [("weight", 1)])]) (zrange 1 (h + 1))) us) = (length us * (2 * length (zrange 1 (h + 1))))%nat).
      { induction us as [|u us IH]; [reflexivity|]. cbn [flat_map length]. rewrite app_length, IH.
        assert (Hl : forall js, length (flat_map (fun j => [(u, to u j, [("weight", 1)]); (to u j, u, [("weight", 1)])]) js) = (2 * length js)%nat) by (induction js as [|j js IHj]; [reflexivity|]; cbn [flat_map app length]; rewrite IHj; lia).
        rewrite Hl. lia. }
      rewrite Hlen, !length_zrange. nia.
    - intros u Hu. exists (Z.of_nat (length (edges_from (graph_of es) u))).
      assert (Hb : is_nodeb (graph_of es) u = true). { apply is_nodeb_true. unfold is_node. change (In u (map fst (g_nodes (graph_of es)))). rewrite <- (nodes_R _ _ HR). apply Hnodes. assumption. }
      split; [rewrite (out_degree_R _ _ u HR), Hb; reflexivity|]. split.
      + rewrite (in_degree_R _ _ u HR), Hb. do 2 f_equal. unfold edges_into, edges_from. change (g_edges (graph_of es)) with es.
        set (sw := fun e : Z * Z * dict string Z => (tgt e, src e, dat e)).
        rewrite <- (map_length sw). apply Permutation_length. apply NoDup_Permutation.
        * apply FinFun.Injective_map_NoDup; [|apply NoDup_filter; assumption]. intros [[a b] x] [[a' b'] x'] Ee. unfold sw in Ee. cbn in Ee. congruence.
        * apply NoDup_filter. assumption.
        * intros [[a b] x]. rewrite in_map_iff, filter_In. cbn [src tgt fst snd]. split.
          -- intros ([[a' b'] x'] & Ee & Hf). unfold sw in Ee. cbn [src tgt dat fst snd] in Ee. injection Ee as <- <- <-. apply filter_In in Hf. destruct Hf as [Hf Ht]. cbn [src tgt fst snd] in Ht. split; [|assumption].
             apply Hin in Hf. apply Hin. destruct Hf as [Hf ->]. split; [apply partners_sym; assumption|reflexivity].
          -- intros [Hf Ht]. exists (b, a, x). split; [reflexivity|]. apply filter_In. cbn [src tgt fst snd]. split; [|assumption]. apply Hin in Hf. apply Hin. destruct Hf as [Hf ->]. split; [apply partners_sym; assumption|reflexivity].
      + assert (Hincl : incl (map (fun j => (u, to u j, [("weight", 1)])) (zrange 1 (h + 1))) (edges_from (graph_of es) u)).
        { intros e He. apply in_map_iff in He. destruct He as (j & <- & Hj). apply in_zrange in Hj. unfold edges_from. apply filter_In. cbn [src fst]. rewrite eqb_refl. split; [|reflexivity].
          change (g_edges (graph_of es)) with es. apply Hin. split; [|reflexivity]. exists u, j. split; [split; lia|auto]. }
        apply NoDup_incl_length in Hincl; [rewrite map_length, length_zrange in Hincl; lia|].
        destruct Hw as [Hw1 Hw2].
        assert (Hj : forall js, NoDup js -> (forall j, In j js -> 1 <= j <= h) -> NoDup (map (fun j => (u, to u j, [("weight", 1)])) js)).
        { induction js as [|j js IH]; intros Hn1 Hjs; [constructor|]. apply NoDup_cons_iff in Hn1. destruct Hn1 as [Hj1 Hj2]. cbn [map]. constructor; [|apply IH; [assumption|intros x Hx; apply Hjs; right; assumption]].
          intros Hx. apply in_map_iff in Hx. destruct Hx as (j' & Ej & Hj'). injection Ej as Ej. assert (Hjj : j = j'); [|congruence].
          apply (Hw2 u j u j'); [split; [assumption|apply Hjs; left; reflexivity]|split; [assumption|apply Hjs; right; assumption]|]. left. auto. }
        apply Hj; [apply NoDup_zrange|]. intros j Hx. apply in_zrange in Hx. lia.
  Qed.

  Lemma watts_strogatz_spec fuel coin pick k : k / 2 = h -> k < n ->
    match watts_strogatz_graph fuel coin pick n k with
    | Ok net => exists g to, from_adjacency_matrix nzb (matrix_of g) = (net, Ok tt) /\ holds g to /\ forall u j, to u j = ring_to u j \/ coin j u = true
    | Err e => e = OutOfFuel
    end.
  Proof.
    intros Hk Hkn. unfold watts_strogatz_graph. destruct (Z.ltb_spec n k); [lia|]. destruct (Z.eqb_spec k n); [lia|].
    pose proof (ws_graph_spec fuel coin pick k Hk) as Hg. destruct (ws_graph fuel coin pick n k) as [g|e]; cbn [rbind]; [|assumption]. destruct Hg as (to & Hg & Hto).
    rewrite (adjacency_ok g to Hg). cbn [rbind]. destruct (from_adj_R nzb (matrix_of g)) as (net & E & _). rewrite E. exists g, to. auto.
  Qed.
  Lemma watts_strogatz_finishes coin pick k : k / 2 = h -> k < n -> keeps_drawing n pick -> exists fuel net, watts_strogatz_graph fuel coin pick n k = Ok net.
  Proof.
    intros Hk Hkn Hp. destruct (ws_graph_finishes coin pick k Hk Hp) as (fuel & g & Eg). exists fuel. pose proof (ws_graph_spec fuel coin pick k Hk) as Hg. rewrite Eg in Hg. destruct Hg as (to & Hg & _).
    unfold watts_strogatz_graph. destruct (Z.ltb_spec n k); [lia|]. destruct (Z.eqb_spec k n); [lia|]. rewrite Eg. cbn [rbind]. rewrite (adjacency_ok g to Hg). cbn [rbind].
    destruct (from_adj_R nzb (matrix_of g)) as (net & -> & _). eauto.
  Qed.
End Ring.
