(** Lattice: the networkx graphs, and the network built from them *)
From Verif Require Import Py PyFacts ListFacts Network NetworkSpec NetworkProofs NetworkProofs2 NetworkProofs3 TopologyProofs3 LatticeSpec Lattice.
Open Scope string_scope.
Open Scope list_scope.
Open Scope Z_scope.

Definition adj (g : ugraph) (u v : Z) : Prop := exists l, dget g u = Some l /\ In v l.
Definition simple (g : ugraph) : Prop :=
  NoDup (dkeys g) /\ (forall u l, dget g u = Some l -> NoDup l) /\ (forall u v, adj g u v -> adj g v u) /\ forall u v, adj g u v -> In u (dkeys g) /\ In v (dkeys g).

Lemma existsb_in v l : existsb (Z.eqb v) l = true <-> In v l.
Proof. rewrite existsb_exists. split; [intros (x & Hx & E); apply Z.eqb_eq in E; subst; assumption|intros Hv; exists v; split; [assumption|apply Z.eqb_refl]]. Qed.
Lemma existsb_out v l : existsb (Z.eqb v) l = false <-> ~ In v l.
Proof. rewrite <- existsb_in. destruct (existsb (Z.eqb v) l); split; congruence. Qed.

Lemma NoDup_snoc {X} (l : list X) x : NoDup l -> ~ In x l -> NoDup (l ++ [x]).
Proof. intros Hn Hx. apply NoDup_rev in Hn. rewrite <- (rev_involutive (l ++ [x])), rev_app_distr. apply NoDup_rev. cbn. constructor; [|assumption]. rewrite <- in_rev. assumption. Qed.

Lemma add_nodes_keys nodes : NoDup nodes -> forall g, (forall v, In v nodes -> ~ In v (dkeys g)) -> dkeys (fold_left ug_add_node nodes g) = dkeys g ++ nodes /\
  forall u, dget (fold_left ug_add_node nodes g) u = if existsb (Z.eqb u) nodes then Some [] else dget g u.
Proof.
  induction nodes as [|v nodes IH]; intros Hnd g Hg; cbn [fold_left]; [rewrite app_nil_r; auto|]. apply NoDup_cons_iff in Hnd. destruct Hnd as [Hv Hnd].
  assert (E : ug_add_node g v = dset g v []). { unfold ug_add_node. assert (Hm : dmem g v = false) by (apply dmem_false; apply Hg; left; reflexivity). rewrite Hm. reflexivity. }
  assert (Ek : dkeys (dset g v []) = dkeys g ++ [v]). { rewrite dkeys_dset. assert (Hm : dmem g v = false) by (apply dmem_false; apply Hg; left; reflexivity). rewrite Hm. reflexivity. }
  rewrite E. destruct (IH Hnd (dset g v [])) as [IHk IHg].
  - intros w Hw. rewrite Ek, in_app_iff. intros [Hx|[Hx|[]]]; [apply (Hg w); [right; assumption|assumption]|congruence].
  - split; [rewrite IHk, Ek, <- app_assoc; reflexivity|]. intros u. rewrite IHg. cbn [existsb]. destruct (existsb (Z.eqb u) nodes) eqn:Eu; [rewrite orb_true_r; reflexivity|].
    rewrite orb_false_r, dget_dset. destruct (eqd u v) as [->|Hne]; [rewrite Z.eqb_refl; reflexivity|]. destruct (Z.eqb_spec u v); [contradiction|reflexivity].
Qed.

Lemma link_keys g u v : dkeys (ug_link g u v) = dkeys g.
Proof. unfold ug_link. destruct (dget g u) as [l|] eqn:E; [|reflexivity]. destruct (existsb _ _); [reflexivity|]. rewrite dkeys_dset. assert (Hm : dmem g u = true) by (unfold dmem; rewrite E; reflexivity). rewrite Hm. reflexivity. Qed.

Lemma link_spec g u v : In u (dkeys g) -> (forall x l, dget g x = Some l -> NoDup l) ->
  (forall x l, dget (ug_link g u v) x = Some l -> NoDup l) /\ forall x y, adj (ug_link g u v) x y <-> adj g x y \/ x = u /\ y = v.
Proof.
  intros Hu Hn. destruct (dget_key_some _ _ Hu) as [l E]. unfold ug_link. rewrite E. destruct (existsb (Z.eqb v) l) eqn:Ev.
  - split; [assumption|]. intros x y. split; [auto|]. intros [Hx|[-> ->]]; [assumption|]. exists l. split; [assumption|apply existsb_in; assumption].
  - apply existsb_out in Ev. split.
    + intros x l'. rewrite dget_dset. destruct (eqd x u) as [->|Hne]; [|apply Hn]. intros Hx. injection Hx as <-. apply NoDup_snoc; [eapply Hn; eassumption|assumption].
    + intros x y. unfold adj. rewrite dget_dset. destruct (eqd x u) as [->|Hne].
      * split.
        -- intros (l' & Hx & Hy). injection Hx as <-. apply in_app_iff in Hy. destruct Hy as [Hy|[<-|[]]]; [left; eauto|auto].
        -- intros [(l' & Hl & Hy)|[_ ->]]; (eexists; split; [reflexivity|]); apply in_app_iff; [left; congruence|right; left; reflexivity].
      * split; [auto|]. intros [Hx|[Hx _]]; [assumption|contradiction].
Qed.

Lemma ug_of_spec nodes edges : NoDup nodes -> (forall e, In e edges -> In (fst e) nodes /\ In (snd e) nodes) ->
  dkeys (ug_of nodes edges) = nodes /\ simple (ug_of nodes edges) /\ forall u v, adj (ug_of nodes edges) u v <-> In (u, v) edges \/ In (v, u) edges.
Proof.
  intros Hnd He. set (P := fun g : ugraph => dkeys g = nodes /\ (forall x (l : list Z), dget g x = Some l -> NoDup l)).
  assert (Hg : P (ug_of nodes edges) /\ forall u v, adj (ug_of nodes edges) u v <-> In (u, v) edges \/ In (v, u) edges).
  { unfold ug_of. destruct (add_nodes_keys nodes Hnd [] ltac:(intros v _ [])) as [Ek Eg]. cbn in Ek.
    induction edges as [|[a b] es IH] using rev_ind.
    - cbn [fold_left]. split; [split; [assumption|]|].
      + intros x l. rewrite Eg. cbn. destruct (existsb (Z.eqb x) nodes); [|discriminate]. intros E. injection E as <-. constructor.
      + intros u v. unfold adj. rewrite Eg. cbn. destruct (existsb (Z.eqb u) nodes); split; try (intros [[]|[]]); intros (l & E & Hl); [injection E as <-; destruct Hl|discriminate].
    - destruct IH as [[IHk IHn] IHa]; [intros e Hin; apply He, in_app_iff; auto|]. rewrite fold_left_app. cbn [fold_left fst snd]. set (g := fold_left _ es _) in *. clearbody g.
      destruct (He (a, b)) as [Ha Hb]; [apply in_app_iff; right; left; reflexivity|]. cbn in Ha, Hb. unfold ug_add_edge, ug_add_node.
      assert (Hm : forall x, In x nodes -> dmem g x = true) by (intros x Hx; apply dmem_true; rewrite IHk; assumption). rewrite (Hm a Ha), (Hm b Hb).
      destruct (link_spec g a b ltac:(rewrite IHk; assumption) IHn) as [Hn1 Ha1]. destruct (link_spec (ug_link g a b) b a ltac:(rewrite link_keys, IHk; assumption) Hn1) as [Hn2 Ha2].
      split; [split; [rewrite !link_keys; assumption|assumption]|]. intros u v. rewrite Ha2, Ha1, IHa, !in_app_iff. cbn [In].
      split; [intros [[[H1|H1]|[-> ->]]|[-> ->]]; auto|]. intros [[H1|[H1|[]]]|[H1|[H1|[]]]]; auto; injection H1 as -> ->; auto. }
  destruct Hg as [[Hk Hn] Ha]. split; [assumption|]. split; [|assumption]. split; [rewrite Hk; assumption|]. split; [assumption|]. split.
  - intros u v. rewrite !Ha. tauto.
  - intros u v. rewrite Ha, Hk. intros [Hx|Hx]; destruct (He _ Hx); auto.
Qed.

(** ** edges *)
Lemma edges_from_in g : forall seen u v, In (u, v) (ug_edges_from seen g) <-> exists g1 l g2, g = g1 ++ (u, l) :: g2 /\ In v l /\ ~ In v seen /\ ~ In v (dkeys g1).
Proof.
  induction g as [|[n nb] g IH]; intros seen u v; cbn [ug_edges_from].
  - split; [intros []|]. intros (g1 & l & g2 & E & _). destruct g1; discriminate.
  - rewrite in_app_iff, in_map_iff, IH. split.
    + intros [(x & E & Hx)|(g1 & l & g2 & -> & Hv & Hs & Hk)].
      * injection E as -> ->. apply filter_In in Hx. destruct Hx as [Hx Hs]. apply negb_true_iff, existsb_out in Hs. exists [], nb, g. cbn. auto.
      * exists ((n, nb) :: g1), l, g2. split; [reflexivity|]. split; [assumption|]. split; [intros Hx; apply Hs; right; assumption|]. cbn. intros [Hx|Hx]; [apply Hs; left; assumption|contradiction].
    + intros ([|[n' nb'] g1] & l & g2 & E & Hv & Hs & Hk); injection E as -> -> ->.
      * left. exists v. split; [reflexivity|]. apply filter_In. split; [assumption|]. apply negb_true_iff, existsb_out. assumption.
      * right. exists g1, l, g2. split; [reflexivity|]. split; [assumption|]. cbn in Hk |- *. split; [intros [Hx|Hx]; [apply Hk; left; assumption|contradiction]|]. intros Hx. apply Hk. right. assumption.
Qed.

Lemma NoDup_app_disj {X} (l l' : list X) : NoDup l -> NoDup l' -> (forall x, In x l -> ~ In x l') -> NoDup (l ++ l').
Proof.
  induction l as [|x l IH]; intros H1 H2 Hd; [assumption|]. apply NoDup_cons_iff in H1. destruct H1 as [Hx H1]. cbn. constructor; [|apply IH; [assumption|assumption|intros y Hy; apply Hd; right; assumption]].
  rewrite in_app_iff. intros [Hi|Hi]; [contradiction|]. apply (Hd x); [left; reflexivity|assumption].
Qed.

Lemma dget_split (g1 g2 : ugraph) u l : NoDup (dkeys (g1 ++ (u, l) :: g2)) -> dget (g1 ++ (u, l) :: g2) u = Some l.
Proof. intros Hn. apply dget_in; [assumption|]. apply in_app_iff. right. left. reflexivity. Qed.

Lemma edges_nodup g : NoDup (dkeys g) -> (forall u l, dget g u = Some l -> NoDup l) -> forall seen, NoDup (ug_edges_from seen g).
Proof.
  induction g as [|[n nb] g IH]; intros Hk Hl seen; cbn [ug_edges_from]; [constructor|]. assert (Hnb : NoDup nb) by (apply (Hl n); cbn; destruct (eqd n n); [reflexivity|contradiction]).
  cbn in Hk. apply NoDup_cons_iff in Hk. destruct Hk as [Hn Hk]. apply NoDup_app_disj.
  - apply FinFun.Injective_map_NoDup; [intros x y E; injection E as ->; reflexivity|]. apply NoDup_filter. assumption.
  - apply IH; [assumption|]. intros u l E. apply (Hl u). cbn. destruct (eqd u n) as [->|]; [|assumption]. exfalso. apply Hn. eapply dget_some_key. exact E.
  - intros [a b] Ha Hb. apply in_map_iff in Ha. destruct Ha as (x & E & _). injection E as -> ->. apply edges_from_in in Hb. destruct Hb as (g1 & l & g2 & -> & _). apply Hn. unfold dkeys. rewrite map_app, in_app_iff. right. left. reflexivity.
Qed.

Lemma edges_spec g : simple g -> NoDup (ug_edges g) /\ (forall u v, adj g u v <-> In (u, v) (ug_edges g) \/ In (v, u) (ug_edges g)) /\ (forall u v, In (u, v) (ug_edges g) -> In (v, u) (ug_edges g) -> u = v).
Proof.
  intros (Hk & Hl & Hs & Hn). split; [apply edges_nodup; assumption|]. unfold ug_edges.
  assert (Hadj : forall u v, In (u, v) (ug_edges_from [] g) -> adj g u v). { intros u v Hi. apply edges_from_in in Hi. destruct Hi as (g1 & l & g2 & -> & Hv & _). exists l. split; [apply dget_split; assumption|assumption]. }
  assert (Hcase : forall u v, adj g u v -> In (u, v) (ug_edges_from [] g) \/ In (v, u) (ug_edges_from [] g)).
  { intros u v Ha. pose proof Ha as (l & El & Hv). apply dget_some_in in El. apply in_split in El. destruct El as (g1 & g2 & Eg).
    destruct (in_dec Z.eq_dec v (dkeys g1)) as [Hin|Hni].
    - right. apply edges_from_in. unfold dkeys in Hin. apply in_map_iff in Hin. destruct Hin as ([v' l'] & E & Hin). cbn in E. subst v'. apply in_split in Hin. destruct Hin as (g1a & g1b & ->).
      assert (Eg' : g = g1a ++ (v, l') :: (g1b ++ (u, l) :: g2)) by (rewrite Eg, <- app_assoc; reflexivity). exists g1a, l', (g1b ++ (u, l) :: g2). split; [assumption|]. split.
      + destruct (Hs u v Ha) as (l'' & El'' & Hu). rewrite Eg' in El'', Hk. rewrite dget_split in El'' by assumption. congruence.
      + split; [intros []|]. rewrite Eg' in Hk. unfold dkeys in Hk. rewrite map_app in Hk. cbn [map fst] in Hk. rewrite map_app in Hk. cbn [map fst] in Hk.
        intros Hu. assert (Hn' : forall (l1 l2 : list Z) x, NoDup (l1 ++ l2) -> In x l1 -> ~ In x l2).
        { induction l1 as [|y l1 IH]; intros l2 x Hnd Hx Hy; [destruct Hx|]. cbn in Hnd. apply NoDup_cons_iff in Hnd. destruct Hnd as [Hy' Hnd]. destruct Hx as [<-|Hx]; [apply Hy', in_app_iff; auto|exact (IH _ _ Hnd Hx Hy)]. }
        apply (Hn' _ _ u Hk Hu). right. apply in_app_iff. right. left. reflexivity.
    - left. apply edges_from_in. exists g1, l, g2. split; [assumption|]. split; [assumption|]. split; [intros []|assumption]. }
  split; [intros u v; split; [apply Hcase|intros [Hi|Hi]; [auto|apply Hs; auto]]|].
  intros u v Huv Hvu. apply edges_from_in in Huv, Hvu. destruct Huv as (g1 & l & g2 & E1 & _ & _ & Hv1). destruct Hvu as (g1' & l' & g2' & E2 & _ & _ & Hu1).
  rewrite E1 in E2. clear - E2 Hv1 Hu1. revert g1' E2 Hu1. induction g1 as [|[a b] g1 IH]; intros [|[a' b'] g1'] E2 Hu1; cbn in E2.
  - injection E2 as -> _. reflexivity.
  - injection E2 as -> _ _. exfalso. apply Hu1. left. reflexivity.
  - injection E2 as -> _ _. exfalso. apply Hv1. left. reflexivity.
  - injection E2 as -> _ E2. apply (IH ltac:(intros Hx; apply Hv1; right; assumption) g1' E2). intros Hx. apply Hu1. right. assumption.
Qed.

Lemma edges_ends g u v : simple g -> In (u, v) (ug_edges g) -> In u (dkeys g) /\ In v (dkeys g).
Proof. intros Hs Hi. destruct (edges_spec g Hs) as (_ & Ha & _). destruct Hs as (_ & _ & _ & Hn). apply Hn, Ha. left. assumption. Qed.

(** ** paths and cycles *)
Lemma in_pairwise n a b : In (a, b) (pairwise_range n) <-> 0 <= a /\ b = a + 1 /\ b < n.
Proof. unfold pairwise_range. rewrite in_map_iff. split; [intros (i & E & Hi); injection E as <- <-; apply in_zrange in Hi; lia|]. intros (H0 & -> & H1). exists a. split; [reflexivity|apply in_zrange; lia]. Qed.

Definition stands (g : ugraph) (N : Z) (P : Z -> Z -> Prop) : Prop := dkeys g = zrange 0 N /\ simple g /\ forall u v, 0 <= u < N -> 0 <= v < N -> adj g u v <-> P u v.

Lemma path_cycle (periodic : bool) d : 0 < d -> exists g, (if periodic then cycle_graph else path_graph) d = Ok g /\ stands g d (joined periodic d).
Proof.
  intros Hd. set (es := pairwise_range d ++ (if periodic then [(d - 1, 0)] else [])).
  assert (E : (if periodic then cycle_graph else path_graph) d = Ok (ug_of (zrange 0 d) es)).
  { unfold es. destruct periodic; [unfold cycle_graph|unfold path_graph]; destruct (Z.ltb_spec d 0); try lia. - destruct (Z.eqb_spec d 0); [lia|reflexivity]. - rewrite app_nil_r. reflexivity. }
  exists (ug_of (zrange 0 d) es). split; [assumption|].
  assert (Hin : forall a b, In (a, b) es <-> (0 <= a /\ b = a + 1 /\ b < d) \/ periodic = true /\ a = d - 1 /\ b = 0).
  { intros a b. unfold es. rewrite in_app_iff, in_pairwise. destruct periodic; cbn [In]; split; try tauto; intros [H1|H1]; auto.
    - right. destruct H1 as [H1|[]]. injection H1 as <- <-. auto.
    - right. left. destruct H1 as (_ & -> & ->). reflexivity.
    - destruct H1 as [H1 _]. discriminate. }
  destruct (ug_of_spec (zrange 0 d) es (NoDup_zrange _ _)) as (Hk & Hs & Ha).
  { intros [a b] Hi. apply Hin in Hi. cbn. rewrite !in_zrange. lia. }
  split; [assumption|]. split; [assumption|]. intros u v Hu Hv. rewrite Ha, !Hin. unfold joined. destruct periodic; split; intros Hx; try lia; intuition (try lia; try discriminate).
Qed.

(** ** products *)
Lemma zrange_product d m : 0 <= d -> 0 < m -> flat_map (fun u => map (fun x => u * m + x) (zrange 0 m)) (zrange 0 d) = zrange 0 (d * m).
Proof.
  intros Hd Hm. revert d Hd. apply natlike_ind; [reflexivity|]. intros x Hx IH. unfold Z.succ.
  rewrite (zrange_snoc 0 (x + 1)) by lia. replace (x + 1 - 1) with x by lia. rewrite flat_map_app, IH. cbn [flat_map]. rewrite app_nil_r. rewrite (zrange_split 0 (x * m) ((x + 1) * m)) by nia. f_equal.
  assert (Hsh : forall k a b, map (fun y => k + y) (zrange a b) = zrange (k + a) (k + b)).
  { intros k a b. destruct (Z.le_gt_cases b a) as [Hle|Hgt]; [rewrite !zrange_nil by lia; reflexivity|]. remember (Z.to_nat (b - a)) as n eqn:En. revert a Hgt En. induction n as [|n IHn]; intros a Hgt En; [lia|].
    rewrite (zrange_cons a), (zrange_cons (k + a)) by lia. cbn [map]. f_equal. destruct (Z.eq_dec (a + 1) b) as [Eb|Hne]; [rewrite !zrange_nil by lia; reflexivity|]. replace (k + a + 1) with (k + (a + 1)) by lia. apply IHn; lia. }
  rewrite Hsh. f_equal; lia.
Qed.

Lemma product_stands G H d m P Q : 0 < d -> 0 < m -> stands G d P -> stands H m Q ->
  stands (cartesian_product G H) (d * m) (fun u v => u mod m = v mod m /\ P (u / m) (v / m) \/ u / m = v / m /\ Q (u mod m) (v mod m)).
Proof.
  intros Hd Hm (KG & SG & AG) (KH & SH & AH). unfold cartesian_product.
  assert (Elen : Z.of_nat (length H) = m) by (replace (length H) with (length (dkeys H)) by apply map_length; rewrite KH, length_zrange; lia). rewrite Elen, KG, KH, zrange_product by lia.
  set (es := _ ++ _). destruct (edges_spec G SG) as (_ & EG & _). destruct (edges_spec H SH) as (_ & EH & _).
  assert (Hcell : forall u x, 0 <= x < m -> (u * m + x) / m = u /\ (u * m + x) mod m = x).
  { intros u x Hx. split; [rewrite Z.add_comm, Z.div_add by lia; rewrite Z.div_small by lia; lia|rewrite Z.add_comm, Z.mod_add by lia; apply Z.mod_small; lia]. }
  assert (Hin : forall a b, 0 <= a < d * m -> 0 <= b < d * m -> In (a, b) es <-> (a mod m = b mod m /\ In (a / m, b / m) (ug_edges G)) \/ (a / m = b / m /\ In (a mod m, b mod m) (ug_edges H))).
  { intros a b Ha Hb. unfold es. rewrite in_app_iff, !in_flat_map.
    assert (Hdm : forall z, z = z / m * m + z mod m) by (intros z; pose proof (Z.div_mod z m ltac:(lia)); lia). assert (Hbd : forall z, 0 <= z < d * m -> 0 <= z / m < d /\ 0 <= z mod m < m).
    { intros z Hz. split; [split; [apply Z.div_pos; lia|apply Z.div_lt_upper_bound; nia]|apply Z.mod_pos_bound; lia]. }
    split.
    - intros [([u v] & He & Hi)|(u & Hu & Hi)]; apply in_map_iff in Hi.
      + destruct Hi as (x & E & Hx). apply in_zrange in Hx. cbn in E. injection E as <- <-. left. destruct (Hcell u x Hx) as [-> ->]. destruct (Hcell v x Hx) as [-> ->]. auto.
      + destruct Hi as ([x y] & E & He). cbn in E. injection E as <- <-. destruct (edges_ends H x y SH He) as [Hx Hy]. rewrite KH, in_zrange in Hx, Hy. right. destruct (Hcell u x Hx) as [-> ->]. destruct (Hcell u y Hy) as [-> ->]. auto.
    - destruct (Hbd a Ha) as [Ha1 Ha2]. destruct (Hbd b Hb) as [Hb1 Hb2]. intros [[Em He]|[Ed He]].
      + left. exists (a / m, b / m). split; [assumption|]. apply in_map_iff. exists (a mod m). split; [cbn; f_equal; [rewrite <- Hdm; reflexivity|rewrite Em, <- Hdm; reflexivity]|apply in_zrange; lia].
      + right. exists (a / m). split; [apply in_zrange; lia|]. apply in_map_iff. exists (a mod m, b mod m). split; [cbn; f_equal; [rewrite <- Hdm; reflexivity|rewrite Ed, <- Hdm; reflexivity]|assumption]. }
  destruct (ug_of_spec (zrange 0 (d * m)) es (NoDup_zrange _ _)) as (Hk & Hs & Ha).
  { intros [a b] Hi. unfold es in Hi. rewrite in_app_iff, !in_flat_map in Hi. cbn [fst snd]. rewrite !in_zrange. destruct Hi as [([u v] & He & Hi)|(u & Hu & Hi)]; apply in_map_iff in Hi.
    - destruct Hi as (x & E & Hx). apply in_zrange in Hx. cbn in E. injection E as <- <-. destruct (edges_ends G u v SG He) as [Hu Hv]. rewrite KG, in_zrange in Hu, Hv. nia.
    - destruct Hi as ([x y] & E & He). cbn in E. injection E as <- <-. destruct (edges_ends H x y SH He) as [Hx Hy]. rewrite KH, in_zrange in Hx, Hy. apply in_zrange in Hu. nia. }
  split; [assumption|]. split; [assumption|]. intros u v Hu Hv. rewrite Ha, !Hin by assumption.
  assert (Hbd : forall z, 0 <= z < d * m -> 0 <= z / m < d /\ 0 <= z mod m < m).
  { intros z Hz. split; [split; [apply Z.div_pos; lia|apply Z.div_lt_upper_bound; nia]|apply Z.mod_pos_bound; lia]. }
  destruct (Hbd u Hu), (Hbd v Hv). rewrite <- AG, <- AH by assumption. rewrite EG, EH. split; [intros [[[? ?]|[? ?]]|[[? ?]|[? ?]]]; auto|intros [[E [Hx|Hx]]|[E [Hx|Hx]]]; auto].
Qed.

Lemma stands_iff g N P Q : (forall u v, 0 <= u < N -> 0 <= v < N -> P u v <-> Q u v) -> stands g N P -> stands g N Q.
Proof. intros E (H1 & H2 & H3). split; [assumption|]. split; [assumption|]. intros u v Hu Hv. rewrite H3 by assumption. apply E; assumption. Qed.

(** ** coordinates *)
Lemma volume_app ds d : volume (ds ++ [d]) = d * volume ds.
Proof. induction ds as [|e ds IH]; cbn [app volume]; [reflexivity|]. rewrite IH. lia. Qed.
Lemma volume_pos ds : Forall (fun d => 0 < d) ds -> 0 < volume ds.
Proof. induction 1; cbn [volume]; lia. Qed.

Lemma coords_mod ds v : Forall (fun d => 0 < d) ds -> coords ds (v mod volume ds) = coords ds v.
Proof.
  intros Hp. revert v. induction Hp as [|d ds Hd Hp IH]; intros v; [reflexivity|]. cbn [coords volume]. pose proof (volume_pos ds Hp). rewrite Z.rem_mul_r by lia. f_equal.
  - rewrite (Z.mul_comm d), Z.mod_add by lia. apply Z.mod_mod. lia.
  - rewrite <- (IH (v / d)). f_equal. rewrite (Z.mul_comm d), Z.div_add by lia. rewrite (Z.div_small (v mod d)) by (apply Z.mod_pos_bound; lia). lia.
Qed.

Lemma coords_snoc ds d v : Forall (fun d => 0 < d) ds -> coords (ds ++ [d]) v = coords ds v ++ [(v / volume ds) mod d].
Proof.
  intros Hp. revert v. induction Hp as [|e ds He Hp IH]; intros v; cbn [app coords volume]; [rewrite Z.div_1_r; reflexivity|]. rewrite IH. cbn [app]. rewrite Z.div_div by (pose proof (volume_pos ds Hp); lia). reflexivity.
Qed.

Lemma coords_length ds v : length (coords ds v) = length ds.
Proof. revert v. induction ds; intros v; cbn; auto. Qed.

Lemma coords_inj ds u v : Forall (fun d => 0 < d) ds -> 0 <= u < volume ds -> 0 <= v < volume ds -> coords ds u = coords ds v -> u = v.
Proof.
  intros Hp. revert u v. induction Hp as [|d ds Hd Hp IH]; intros u v Hu Hv E; cbn [volume coords] in *; [lia|]. injection E as E1 E2.
  assert (Hb : forall z, 0 <= z < d * volume ds -> 0 <= z / d < volume ds) by (intros z Hz; split; [apply Z.div_pos; lia|apply Z.div_lt_upper_bound; lia]).
  specialize (IH _ _ (Hb u Hu) (Hb v Hv) E2). rewrite (Z.div_mod u d), (Z.div_mod v d) by lia. congruence.
Qed.

Lemma nth_ext_eq {X} (l l' : list X) : (forall j, nth_error l j = nth_error l' j) -> l = l'.
Proof.
  revert l'. induction l as [|x l IH]; intros [|y l'] E; [reflexivity|specialize (E O); discriminate|specialize (E O); discriminate|]. pose proof (E O) as E0. cbn in E0. injection E0 as ->. f_equal. apply IH. intros j. exact (E (S j)).
Qed.

Lemma adjacent_snoc periodic ds d u v : Forall (fun d => 0 < d) ds -> 0 < d -> 0 <= u < d * volume ds -> 0 <= v < d * volume ds ->
  adjacent periodic (ds ++ [d]) u v <-> (u mod volume ds = v mod volume ds /\ joined periodic d (u / volume ds) (v / volume ds) \/ u / volume ds = v / volume ds /\ adjacent periodic ds (u mod volume ds) (v mod volume ds)).
Proof.
  intros Hp Hd Hu Hv. pose proof (volume_pos ds Hp) as Hm. set (m := volume ds) in *.
  assert (Hc : forall z, 0 <= z < d * m -> coords (ds ++ [d]) z = coords ds (z mod m) ++ [z / m]).
  { intros z Hz. rewrite coords_snoc by assumption. unfold m. rewrite coords_mod by assumption. rewrite (Z.mod_small (z / volume ds)); [reflexivity|]. split; [apply Z.div_pos; lia|apply Z.div_lt_upper_bound; fold m; nia]. }
  assert (Hb : forall z, 0 <= z mod m < m) by (intros z; apply Z.mod_pos_bound; lia).
  assert (Hin : forall (l : list Z) x i, (i < length l)%nat -> nth_error (l ++ [x]) i = nth_error l i) by (intros l x i Hi; apply nth_error_app1; assumption).
  assert (Hlast : forall (l : list Z) x i, i = length l -> nth_error (l ++ [x]) i = Some x) by (intros l x i ->; rewrite nth_error_app2 by lia; rewrite Nat.sub_diag; reflexivity).
  unfold adjacent. rewrite (Hc u Hu), (Hc v Hv). split.
  - intros (i & e & a & b & Ei & Ea & Eb & Hj & Hrest). assert (Hil : (i < length (ds ++ [d]))%nat) by (apply nth_error_Some; congruence). rewrite app_length in Hil. cbn [length] in Hil.
    destruct (Nat.eq_dec i (length ds)) as [->|Hne].
    + left. rewrite Hlast in Ei by reflexivity. rewrite Hlast in Ea, Eb by (rewrite coords_length; reflexivity). injection Ei as <-. injection Ea as <-. injection Eb as <-. split; [|assumption].
      apply (coords_inj ds); [assumption|apply Hb|apply Hb|]. apply nth_ext_eq. intros j. destruct (Nat.lt_ge_cases j (length ds)) as [Hj'|Hj'].
      * specialize (Hrest j ltac:(lia)). rewrite !Hin in Hrest by (rewrite coords_length; assumption). assumption.
      * transitivity (@None Z); [apply nth_error_None; rewrite coords_length; assumption|symmetry; apply nth_error_None; rewrite coords_length; assumption].
    + right. split.
      * specialize (Hrest (length ds) ltac:(lia)). rewrite !Hlast in Hrest by (rewrite coords_length; reflexivity). congruence.
      * rewrite Hin in Ei by lia. rewrite Hin in Ea, Eb by (rewrite coords_length; lia). exists i, e, a, b. repeat (split; [assumption|]). intros j Hj'. destruct (Nat.lt_ge_cases j (length ds)) as [Hlt|Hge].
        -- specialize (Hrest j Hj'). rewrite !Hin in Hrest by (rewrite coords_length; assumption). assumption.
        -- transitivity (@None Z); [apply nth_error_None; rewrite coords_length; assumption|symmetry; apply nth_error_None; rewrite coords_length; assumption].
  - intros [[Em Hj]|[Ed (i & e & a & b & Ei & Ea & Eb & Hj & Hrest)]].
    + exists (length ds), d, (u / m), (v / m). rewrite !Hlast by (rewrite ?coords_length; reflexivity). repeat (split; [auto|]). intros j Hne. rewrite Em. destruct (Nat.lt_ge_cases j (length ds)) as [Hlt|Hge].
      * rewrite !Hin by (rewrite coords_length; assumption). reflexivity.
      * transitivity (@None Z); [apply nth_error_None; rewrite app_length, coords_length; cbn; lia|symmetry; apply nth_error_None; rewrite app_length, coords_length; cbn; lia].
    + assert (Hil : (i < length ds)%nat) by (apply nth_error_Some; congruence). exists i, e, a, b. rewrite !Hin by (rewrite ?coords_length; assumption). repeat (split; [assumption|]). intros j Hne. destruct (Nat.lt_ge_cases j (length ds)) as [Hlt|Hge].
      * rewrite !Hin by (rewrite coords_length; assumption). apply Hrest. assumption.
      * destruct (Nat.eq_dec j (length ds)) as [->|Hx]; [rewrite !Hlast by (rewrite coords_length; reflexivity); congruence|].
        transitivity (@None Z); [apply nth_error_None; rewrite app_length, coords_length; cbn; lia|symmetry; apply nth_error_None; rewrite app_length, coords_length; cbn; lia].
Qed.

Lemma relabel_stands g N P f k : (forall v, f v = v + k) -> stands g N P ->
  dkeys (relabel_copy f g) = map f (zrange 0 N) /\ simple (relabel_copy f g) /\ forall u v, 0 <= u < N -> 0 <= v < N -> adj (relabel_copy f g) (f u) (f v) <-> P u v.
Proof.
  intros Hf (Hk & Hs & Ha). unfold relabel_copy. destruct (edges_spec g Hs) as (_ & He & _).
  destruct (ug_of_spec (map f (dkeys g)) (map (fun e => (f (fst e), f (snd e))) (ug_edges g))) as (Hk' & Hs' & Ha').
  - apply FinFun.Injective_map_NoDup; [intros x y E; rewrite !Hf in E; lia|apply Hs].
  - intros e Hi. apply in_map_iff in Hi. destruct Hi as ([a b] & <- & Hi). cbn. destruct (edges_ends g a b Hs Hi). split; apply in_map; assumption.
  - split; [rewrite Hk', Hk; reflexivity|]. split; [assumption|]. intros u v Hu Hv. rewrite Ha', <- (Ha u v Hu Hv), He.
    assert (Hin : forall a b, In (f a, f b) (map (fun e => (f (fst e), f (snd e))) (ug_edges g)) <-> In (a, b) (ug_edges g)).
    { intros a b. rewrite in_map_iff. split; [intros ([x y] & E & Hi); cbn in E; rewrite !Hf in E; assert (x = a /\ y = b) as [-> ->] by (split; assert (E' := E); inversion E'; lia); assumption|intros Hi; exists (a, b); auto]. }
    rewrite !Hin. reflexivity.
Qed.

Lemma grid_stands dim periodic : dim <> [] -> Forall (fun d => 0 < d) dim -> exists g, grid_graph dim periodic = Ok g /\ stands g (volume dim) (adjacent periodic dim).
Proof.
  intros Hne Hp. destruct dim as [|d ds]; [contradiction|]. inversion Hp as [|? ? Hd Hps]; subst. unfold grid_graph. destruct (path_cycle periodic d Hd) as (g0 & E0 & H0). rewrite E0. cbn [rbind].
  assert (H0' : stands g0 (volume [d]) (adjacent periodic [d])).
  { cbn [volume]. rewrite Z.mul_1_r. eapply stands_iff; [|exact H0]. intros u v Hu Hv. cbn beta. change [d] with ([] ++ [d]). rewrite adjacent_snoc by (try constructor; cbn [volume]; lia). cbn [volume]. rewrite !Z.div_1_r, !Z.mod_1_r.
    split; [auto|]. intros [[_ Hx]|[_ (i & e & a & b & Ei & _)]]; [assumption|destruct i; discriminate]. }
  assert (Hfold : forall ds done g, Forall (fun d => 0 < d) done -> Forall (fun d => 0 < d) ds -> stands g (volume done) (adjacent periodic done) ->
    exists g', rfold (fun G d => Gnew <- (if periodic then cycle_graph else path_graph) d ;; Ok (cartesian_product Gnew G)) ds g = Ok g' /\ stands g' (volume (done ++ ds)) (adjacent periodic (done ++ ds))).
  { clear. induction ds as [|d ds IH]; intros done g Hdone Hds Hg; [exists g; rewrite app_nil_r; split; [reflexivity|assumption]|]. inversion Hds as [|? ? Hd Hds']; subst. cbn [rfold].
    destruct (path_cycle periodic d Hd) as (gd & Ed & Hgd). rewrite Ed. cbn [rbind].
    destruct (IH (done ++ [d]) (cartesian_product gd g)) as (g' & E' & Hg'); [apply Forall_app; auto|assumption| |exists g'; split; [exact E'|]; rewrite <- app_assoc in Hg'; exact Hg'].
    rewrite volume_app. eapply stands_iff; [|apply product_stands; [assumption|apply volume_pos; assumption|exact Hgd|exact Hg]]. intros u v Hu Hv. cbn beta. symmetry. apply adjacent_snoc; assumption. }
  destruct (Hfold ds [d] g0 ltac:(repeat constructor; assumption) Hps H0') as (g' & E' & Hg'). cbn [app] in Hg'.
  rewrite E'. cbn [rbind]. eexists. split; [reflexivity|]. destruct (relabel_stands g' _ _ (fun v => v) 0 ltac:(intros; cbn beta; lia) Hg') as (H1 & H2 & H3). split; [rewrite H1, map_id; reflexivity|]. split; assumption.
Qed.

(** ** the network *)
Definition lat_edges {V} (self_loops : bool) (es : list (Z * Z)) : list (Z * Z * dict string V) :=
  flat_map (fun e => if (fst e =? snd e) && negb self_loops then [] else [(snd e, fst e, []); (fst e, snd e, [])]) es.

Lemma lat_R {V} self_loops es : exists n : network Z V, mfor es (fun e => if (fst e =? snd e) && negb self_loops then mret tt
    else mthen (add_edge (snd e) (fst e) []) (add_edge (fst e) (snd e) [])) empty_network = (n, Ok tt) /\ R n (graph_of (lat_edges self_loops es)) /\ net_rot n = None.
Proof.
  destruct (build_graph (V:=V) (lat_edges self_loops es)) as (n & E & HR & Hrot).
  { intros e He. unfold lat_edges in He. apply in_flat_map in He. destruct He as (x & _ & He). destruct (_ && _); [destruct He|]. destruct He as [<-|[<-|[]]]; reflexivity. }
  exists n. split; [|auto]. rewrite <- E. unfold lat_edges. rewrite mfor_flat_map. apply mfor_ext. intros e n' _. destruct (_ && _); [reflexivity|]. cbn [mfor src tgt dat fst snd].
  unfold mthen, mbind. destruct (add_edge (snd e) (fst e) [] n') as [n1 [u|]]; [|reflexivity]. destruct (add_edge (fst e) (snd e) [] n1) as [n2 [[]|]]; reflexivity.
Qed.

Definition zz_dec (x y : Z * Z) : {x = y} + {x <> y}.
Proof. decide equality; apply Z.eq_dec. Defined.

Lemma one_in (es : list (Z * Z)) u v : NoDup es -> length (filter (fun e => (fst e =? u) && (snd e =? v)) es) = if in_dec zz_dec (u, v) es then 1%nat else 0%nat.
Proof.
  induction es as [|[a b] es IH]; intros Hn; [reflexivity|]. apply NoDup_cons_iff in Hn. destruct Hn as [Hx Hn]. specialize (IH Hn). cbn [filter fst snd]. destruct (in_dec _ (u, v) es) as [Hi|Hi].
  - assert (Hne : (a =? u) && (b =? v) = false) by (destruct (Z.eqb_spec a u), (Z.eqb_spec b v); subst; cbn; tauto). rewrite Hne. destruct (in_dec _ (u, v) ((a, b) :: es)) as [_|Hni]; [assumption|exfalso; apply Hni; right; assumption].
  - destruct (Z.eqb_spec a u), (Z.eqb_spec b v); cbn [andb length]; subst; destruct (in_dec _ (u, v) _) as [Hj|Hj]; try (rewrite IH; reflexivity); try (destruct Hj as [Hj|Hj]; [congruence|contradiction]). exfalso. apply Hj. left. reflexivity.
Qed.

Lemma lat_betw {V} self_loops es u v : length (betw (lat_edges (V:=V) self_loops es) u v) =
  if (u =? v) && negb self_loops then 0%nat else Nat.add (length (filter (fun e => (fst e =? u) && (snd e =? v)) es)) (length (filter (fun e => (fst e =? v) && (snd e =? u)) es)).
Proof.
  unfold betw. rewrite map_length. induction es as [|[a b] es IH]; [destruct (_ && _); reflexivity|]. cbn [lat_edges flat_map]. fold (lat_edges (V:=V) self_loops es). rewrite filter_app, app_length, IH. cbn [fst snd filter].
  assert (Ez : forall x y : Z, eqb x y = (x =? y)) by (intros x y; unfold eqb; destruct (eqd x y), (Z.eqb_spec x y); congruence).
  destruct (Z.eqb_spec a b) as [->|Hab], self_loops; cbn [negb andb]; rewrite ?andb_false_r, ?andb_true_r; cbn [filter src tgt fst snd]; rewrite ?Ez;
    destruct (Z.eqb_spec u v) as [->|Huv]; cbn [andb negb]; try lia;
    repeat match goal with |- context [(?x =? ?y)] => destruct (Z.eqb_spec x y) end; cbn [andb length]; subst; try lia; try congruence.
Qed.

Theorem lattice_spec {V} dim periodic self_loops first : dim <> [] -> Forall (fun d => 0 < d) dim -> let N := volume dim in
  exists net : network Z V, lattice dim periodic self_loops first = Ok net /\ net_rot net = None /\ (exists g, R net g) /\
    (forall v, In v (nodes net) <-> exists u w, first <= u < first + N /\ first <= w < first + N /\ (v = u \/ v = w) /\ (u <> w \/ self_loops = true) /\ adjacent periodic dim (u - first) (w - first)) /\
    (forall e, In e (edges net) -> first <= fst (fst e) < first + N /\ first <= snd (fst e) < first + N /\ snd e = []) /\
    forall u v, first <= u < first + N -> first <= v < first + N ->
      (u <> v -> adjacent periodic dim (u - first) (v - first) -> edge net u v = Ok [[]]) /\
      (u = v -> adjacent periodic dim (u - first) (v - first) -> self_loops = true -> edge net u v = Ok [[]; []]) /\
      (~ adjacent periodic dim (u - first) (v - first) \/ u = v /\ self_loops = false -> edge net u v = Err KeyError).
Proof.
  intros Hne Hp N. destruct (grid_stands dim periodic Hne Hp) as (g & E & Hg). unfold lattice. rewrite E. cbn [rbind].
  destruct (relabel_stands g _ _ (fun v => v + first) first ltac:(reflexivity) Hg) as (Hk & Hs & Ha). set (g' := relabel_copy _ g) in *. fold N in Hk, Ha.
  destruct (lat_R (V:=V) self_loops (ug_edges g')) as (n & En & HR & Hrot). rewrite En. exists n. split; [reflexivity|]. split; [assumption|]. split; [eauto|].
  destruct (edges_spec g' Hs) as (Hnd & He & Hboth).
  assert (Hadj : forall u v, first <= u < first + N -> first <= v < first + N -> adj g' u v <-> adjacent periodic dim (u - first) (v - first)).
  { intros u v Hu Hv. rewrite <- (Ha (u - first) (v - first)) by lia. replace (u - first + first) with u by lia. replace (v - first + first) with v by lia. reflexivity. }
  assert (Hrange : forall u v, In (u, v) (ug_edges g') -> first <= u < first + N /\ first <= v < first + N).
  { intros u v Hi. destruct (edges_ends g' u v Hs Hi) as [Hu Hv]. rewrite Hk in Hu, Hv. apply in_map_iff in Hu, Hv. destruct Hu as (x & <- & Hx), Hv as (y & <- & Hy). apply in_zrange in Hx, Hy. lia. }
  assert (Hle : forall e : Z * Z * dict string V, In e (lat_edges self_loops (ug_edges g')) -> snd e = [] /\ (fst (fst e) <> snd (fst e) \/ self_loops = true) /\ (In (fst e) (ug_edges g') \/ In (snd (fst e), fst (fst e)) (ug_edges g'))).
  { intros e Hi. unfold lat_edges in Hi. apply in_flat_map in Hi. destruct Hi as ([a b] & Hab & Hi). cbn [fst snd] in Hi. destruct (Z.eqb_spec a b), self_loops; cbn in Hi; try (destruct Hi; fail); destruct Hi as [<-|[<-|[]]]; cbn; auto 10. }
  split; [|split].
  - intros v. rewrite (nodes_R n _ HR). fold (is_node (graph_of (lat_edges (V:=V) self_loops (ug_edges g'))) v). rewrite is_node_graph_of. split.
    + intros (e & Hi & Hv). destruct (Hle e Hi) as (_ & Hlp & Hx). destruct e as [[a b] at_]. cbn [fst snd src tgt] in *. exists a, b.
      assert (Hr : first <= a < first + N /\ first <= b < first + N) by (destruct Hx as [Hx|Hx]; apply Hrange in Hx; tauto). split; [tauto|]. split; [tauto|]. split; [tauto|]. split; [assumption|]. apply Hadj; [tauto|tauto|]. apply He. assumption.
    + intros (u & w & Hu & Hw & Hv & Hlp & Hx). apply Hadj in Hx; [|assumption|assumption]. apply He in Hx.
      assert (Hgen : forall a b, (a <> b \/ self_loops = true) -> In (a, b) (ug_edges g') -> v = a \/ v = b -> exists e : Z * Z * dict string V, In e (lat_edges self_loops (ug_edges g')) /\ (v = src e \/ v = tgt e)).
      { intros a b Hl Hi Hv'. exists (a, b, []). split; [|assumption]. unfold lat_edges. apply in_flat_map. exists (a, b). split; [assumption|]. cbn [fst snd]. destruct (Z.eqb_spec a b), self_loops; cbn; auto. destruct Hl; congruence. }
      destruct Hx as [Hx|Hx]; [apply (Hgen u w)|apply (Hgen w u)]; try assumption; intuition.
  - intros e Hi. apply (Permutation_in _ (edges_R n _ HR)) in Hi. cbn [graph_of g_edges] in Hi. destruct (Hle e Hi) as (Hd & _ & Hx). destruct e as [[a b] at_]. cbn [fst snd] in *. destruct Hx as [Hx|Hx]; apply Hrange in Hx; tauto.
  - intros u v Hu Hv.
    assert (Hdat : Forall (fun a : dict string V => a = []) (betw (lat_edges self_loops (ug_edges g')) u v)).
    { apply Forall_forall. intros a Hi. unfold betw in Hi. apply in_map_iff in Hi. destruct Hi as (e & <- & Hi). apply filter_In in Hi. destruct (Hle e (proj1 Hi)) as (Hd & _). exact Hd. }
    pose proof (lat_betw (V:=V) self_loops (ug_edges g') u v) as Hlen. rewrite !one_in in Hlen by assumption.
    pose proof (edge_R n _ u v HR) as Hedge. unfold between in Hedge. cbn [graph_of g_edges] in Hedge. fold (betw (lat_edges (V:=V) self_loops (ug_edges g')) u v) in Hedge.
    set (B := betw _ u v) in *.
    specialize (Hadj u v Hu Hv). split; [|split].
    + intros Huv Hx. apply Hadj, He in Hx. destruct (Z.eqb_spec u v); [contradiction|]. cbn [andb] in Hlen. destruct (in_dec _ (u, v) _) as [H1|H1], (in_dec _ (v, u) _) as [H2|H2]; [exfalso; apply Huv; apply Hboth; assumption| | |tauto];
        (destruct B as [|x [|? ?]]; try discriminate; inversion Hdat; subst; rewrite Hedge; reflexivity).
    + intros -> Hx ->. apply Hadj, He in Hx. rewrite andb_false_r in Hlen. destruct (in_dec _ (v, v) _) as [H1|H1]; [|tauto]. destruct B as [|x [|y [|? ?]]]; try discriminate. inversion Hdat as [|? ? Hx1 Hd2]; subst. inversion Hd2; subst. rewrite Hedge. reflexivity.
    + intros Hx. assert (EB : B = []).
      { destruct (Z.eqb_spec u v) as [->|Huv]; cbn [andb] in Hlen.
        - destruct self_loops; cbn [negb] in Hlen; [|destruct B; [reflexivity|discriminate]]. destruct Hx as [Hx|[_ Hx]]; [|discriminate]. destruct (in_dec _ (v, v) _) as [H1|H1]; [exfalso; apply Hx, Hadj, He; auto|]. destruct B; [reflexivity|discriminate].
        - destruct Hx as [Hx|[Hx _]]; [|contradiction]. destruct (in_dec _ (u, v) _) as [H1|H1], (in_dec _ (v, u) _) as [H2|H2]; try (exfalso; apply Hx, Hadj, He; auto; fail). destruct B; [reflexivity|discriminate]. }
      rewrite Hedge, EB. reflexivity.
Qed.
