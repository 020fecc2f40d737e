(** * Proofs about the fungal growth model: the topology rule *)
From Coq Require Import QArith Permutation.
From Verif Require Import Py PyFacts ListFacts Network NetworkSpec NetworkProofs NetworkProofs2 NetworkProofs3 LatticeSpec Lattice LatticeProofs Evolve SandpileSpec HopfieldProofs SandpileProofs FungalSpec Fungal.
Open Scope string_scope.
Open Scope list_scope.
Open Scope Z_scope.

Notation fedge := (Z * Z * dict string Q)%type.

Definition cells (N : Z) : list (Z * dict string Q) := map (fun i => (i, [])) (zrange 0 N).
Lemma cells_keys N : map fst (cells N) = zrange 0 N.
Proof. unfold cells. rewrite map_map. apply map_id. Qed.

(** ** Edge lists *)
Lemma eqbZ (x y : Z) : eqb x y = (x =? y).
Proof. unfold eqb. destruct (eqd x y), (Z.eqb_spec x y); congruence. Qed.

Lemma betw_in (es : list fedge) u v : betw es u v <> [] <-> In (u, v) (map fst es).
Proof.
  rewrite betw_nil_iff, in_inc_keys, in_map_iff. split.
  - intros ([[a b] d] & Hi & Ha & Hb). cbn in *. subst. eexists. split; [|exact Hi]. reflexivity.
  - intros ([[a b] d] & E & Hi). injection E as -> ->. eexists. split; [exact Hi|]. split; reflexivity.
Qed.
Lemma betw_one (es : list fedge) u v : NoDup (map fst es) -> (length (betw es u v) <= 1)%nat.
Proof.
  intros Hnd. unfold betw. rewrite map_length. induction es as [|[[a b] d] es IH]; cbn [filter length]; [lia|]. cbn in Hnd. apply NoDup_cons_iff in Hnd. destruct Hnd as [Hni Hnd]. specialize (IH Hnd).
  cbn [src tgt fst snd]. destruct (eqb_spec a u) as [->|]; [|exact IH]. destruct (eqb_spec b v) as [->|]; [|exact IH]. cbn [andb length].
  assert (Ez : filter (fun e : fedge => eqb (src e) u && eqb (tgt e) v) es = []); [|rewrite Ez; cbn; lia].
  apply filter_false. intros [[x y] c] Hi. unfold src, tgt. cbn. destruct (eqb_spec x u) as [->|]; [|reflexivity]. destruct (eqb_spec y v) as [->|]; [|reflexivity]. exfalso. apply Hni. apply in_map_iff. exists (u, v, c). auto.
Qed.

Definition sane (rows cols : Z) (es : list fedge) : Prop :=
  NoDup (map fst es) /\
  (forall u v, In (u, v) (map fst es) -> 0 <= u < rows * cols /\ 0 <= v < rows * cols /\ beside rows cols u v = true /\ ~ In (v, u) (map fst es)) /\
  (forall e, In e es -> dat e = [] \/ exists w, dat e = [("weight", w)]).

Definition grown (rows cols : Z) (n : network Z Q) (es : list fedge) : Prop :=
  R n (mkG (cells (rows * cols)) es) /\ net_rot n = None /\ sane rows cols es.

Lemma has_edge_in n N es u v : R n (mkG (cells N) es) -> has_edge n u v = true <-> In (u, v) (map fst es).
Proof.
  intros HR. rewrite (has_edge_R _ _ _ _ HR). change (between (mkG (cells N) es) u v) with (betw es u v). rewrite <- betw_in. destruct (betw es u v); split; intros Hx; try congruence; exfalso; apply Hx; reflexivity.
Qed.
Lemma has_edge_out n N es u v : R n (mkG (cells N) es) -> has_edge n u v = false <-> ~ In (u, v) (map fst es).
Proof. intros HR. rewrite <- (has_edge_in n N es u v HR). destruct (has_edge n u v); split; intros; congruence. Qed.
Lemma is_cell N es v : is_node (mkG (cells N) es) v <-> 0 <= v < N.
Proof. unfold is_node. cbn [g_nodes]. rewrite cells_keys, in_zrange. reflexivity. Qed.

(** ** Degrees *)
Lemma count_beside rows cols v : 0 < rows -> 0 < cols -> 0 <= v < rows * cols -> (length (filter (fun u => beside rows cols u v) (zrange 0 (rows * cols))) <= 4)%nat.
Proof.
  intros Hr Hc Hv. pose proof (SandpileProofs.degree rows cols v Hr Hc Hv) as Hd.
  assert (Hl : forall (p : Z -> bool) l, zsum (map (fun u => ind (p u)) l) = Z.of_nat (length (filter p l))).
  { intros p l. induction l as [|x l IH]; [reflexivity|]. cbn [map filter]. rewrite zsum_cons, IH. unfold ind. destruct (p x); cbn [length]; lia. }
  rewrite (Hl (fun u => beside rows cols u v)) in Hd. pose proof (axis_degree_le rows). pose proof (axis_degree_le cols). lia.
Qed.

(** the agents linked with [v] *)
Definition mates (es : list fedge) v : list Z := map tgt (from es v) ++ map src (into es v).
Lemma in_mates es v u : In u (mates es v) <-> In (v, u) (map fst es) \/ In (u, v) (map fst es).
Proof.
  unfold mates, from, into. rewrite in_app_iff, !in_map_iff. split; (intros [Hx|Hx]; [left|right]); destruct Hx as ([[a b] d] & E & Hi).
  - apply filter_In in Hi. destruct Hi as [Hi Hb]. apply eqb_eq in Hb. cbn in *. subst. exists (v, u, d). auto.
  - apply filter_In in Hi. destruct Hi as [Hi Hb]. apply eqb_eq in Hb. cbn in *. subst. exists (u, v, d). auto.
  - injection E as -> ->. exists (v, u, d). split; [reflexivity|]. apply filter_In. split; [assumption|]. apply eqb_refl.
  - injection E as -> ->. exists (u, v, d). split; [reflexivity|]. apply filter_In. split; [assumption|]. apply eqb_refl.
Qed.
Lemma NoDup_tgt (es : list fedge) v : NoDup (map fst es) -> NoDup (map tgt (from es v)).
Proof.
  unfold from. induction es as [|[[a b] d] es IH]; intros Hnd; [constructor|]. cbn in Hnd. apply NoDup_cons_iff in Hnd. destruct Hnd as [Hni Hnd]. cbn [filter src fst]. destruct (eqb_spec a v) as [->|]; [|auto].
  cbn [map tgt fst snd]. constructor; [|auto]. intros Hi. apply in_map_iff in Hi. destruct Hi as ([[x y] c] & E & Hi). apply filter_In in Hi. destruct Hi as [Hi Hb]. apply eqb_eq in Hb. cbn in *. subst. apply Hni, in_map_iff. exists (v, b, c). auto.
Qed.
Lemma NoDup_src (es : list fedge) v : NoDup (map fst es) -> NoDup (map src (into es v)).
Proof.
  unfold into. induction es as [|[[a b] d] es IH]; intros Hnd; [constructor|]. cbn in Hnd. apply NoDup_cons_iff in Hnd. destruct Hnd as [Hni Hnd]. cbn [filter tgt fst snd]. destruct (eqb_spec b v) as [->|]; [|auto].
  cbn [map src fst snd]. constructor; [|auto]. intros Hi. apply in_map_iff in Hi. destruct Hi as ([[x y] c] & E & Hi). apply filter_In in Hi. destruct Hi as [Hi Hb]. apply eqb_eq in Hb. cbn in *. subst. apply Hni, in_map_iff. exists (a, v, c). auto.
Qed.
Lemma in_tgt (es : list fedge) v u : In u (map tgt (from es v)) <-> In (v, u) (map fst es).
Proof.
  unfold from. rewrite !in_map_iff. split; intros ([[a b] d] & E & Hi).
  - apply filter_In in Hi. destruct Hi as [Hi Hb]. apply eqb_eq in Hb. cbn in *. subst. exists (v, u, d). auto.
  - injection E as -> ->. exists (v, u, d). split; [reflexivity|]. apply filter_In. split; [assumption|]. apply eqb_refl.
Qed.
Lemma in_src (es : list fedge) v u : In u (map src (into es v)) <-> In (u, v) (map fst es).
Proof.
  unfold into. rewrite !in_map_iff. split; intros ([[a b] d] & E & Hi).
  - apply filter_In in Hi. destruct Hi as [Hi Hb]. apply eqb_eq in Hb. cbn in *. subst. exists (u, v, d). auto.
  - injection E as -> ->. exists (u, v, d). split; [reflexivity|]. apply filter_In. split; [assumption|]. apply eqb_refl.
Qed.
Lemma mates_nodup rows cols es v : sane rows cols es -> NoDup (mates es v).
Proof.
  intros (Hnd & Hs & _). unfold mates. apply NoDup_app_disj; [apply NoDup_tgt; assumption|apply NoDup_src; assumption|]. intros u Hu Hu'. apply in_tgt in Hu. apply in_src in Hu'. apply Hs in Hu. tauto.
Qed.
Lemma mates_beside rows cols es v u : sane rows cols es -> In u (mates es v) -> In u (filter (fun u => beside rows cols u v) (zrange 0 (rows * cols))).
Proof.
  intros (Hnd & Hs & _) Hu. apply filter_In. rewrite in_zrange. apply in_mates in Hu. destruct Hu as [Hu|Hu]; apply Hs in Hu; destruct Hu as (H1 & H2 & H3 & _); [rewrite beside_sym|]; split; assumption.
Qed.
Lemma degree_mates rows cols n es v : grown rows cols n es -> 0 <= v < rows * cols -> Network.degree n v = Ok (Z.of_nat (length (mates es v))).
Proof.
  intros (HR & _ & _) Hv. rewrite (degree_R _ _ _ HR). assert (Hn : is_nodeb (mkG (cells (rows * cols)) es) v = true) by (apply is_nodeb_true, is_cell; assumption). rewrite Hn.
  unfold mates. rewrite app_length, !map_length. reflexivity.
Qed.
Lemma degree_le rows cols es v : 0 < rows -> 0 < cols -> sane rows cols es -> 0 <= v < rows * cols -> (length (mates es v) <= 4)%nat.
Proof.
  intros Hr Hc Hs Hv. etransitivity; [|apply (count_beside rows cols v Hr Hc Hv)]. apply NoDup_incl_length; [eapply mates_nodup; exact Hs|]. intros u Hu. eapply mates_beside; eassumption.
Qed.
Lemma degree_lt rows cols es u v : 0 < rows -> 0 < cols -> sane rows cols es -> 0 <= u < rows * cols -> 0 <= v < rows * cols -> beside rows cols u v = true ->
  ~ In (u, v) (map fst es) -> ~ In (v, u) (map fst es) -> (length (mates es v) < 4)%nat.
Proof.
  intros Hr Hc Hs Hu Hv Hb H1 H2. apply (Nat.le_trans _ (length (filter (fun u => beside rows cols u v) (zrange 0 (rows * cols))))); [|apply count_beside; assumption].
  change (S (length (mates es v))) with (length (u :: mates es v)). apply NoDup_incl_length.
  - constructor; [rewrite in_mates; tauto|eapply mates_nodup; exact Hs].
  - intros x [<-|Hx]; [apply filter_In; rewrite in_zrange; auto|eapply mates_beside; eassumption].
Qed.

(** ** Growing a link *)
Lemma grow_edge rows cols n es a b : grown rows cols n es -> 0 <= a < rows * cols -> 0 <= b < rows * cols -> beside rows cols a b = true ->
  ~ In (a, b) (map fst es) -> ~ In (b, a) (map fst es) -> exists n', mrun (add_edge a b []) n = Ok n' /\ grown rows cols n' (es ++ [(a, b, [])]).
Proof.
  intros (HR & Hrot & Hs) Ha Hb Hbe H1 H2. destruct (add_edge_R n _ a b [] HR eq_refl) as (n' & E & HR' & Hrot'). exists n'. unfold mrun. rewrite E. split; [reflexivity|].
  split; [|split; [congruence|]].
  - unfold spec_add_edge in HR'. rewrite (ensure_node_id _ a) in HR' by (apply is_cell; assumption). rewrite (ensure_node_id _ b) in HR' by (apply is_cell; assumption). exact HR'.
  - destruct Hs as (Hnd & Hs & Hd). assert (Hab : a <> b) by (intros ->; unfold beside in Hbe; rewrite Z.eqb_refl in Hbe; discriminate). split; [|split].
    + rewrite map_app. cbn. apply NoDup_snoc; assumption.
    + intros u v Hi. rewrite map_app, in_app_iff in *. cbn in *. destruct Hi as [Hi|[E'|[]]].
      * destruct (Hs u v Hi) as (Hu & Hv & Hbuv & Hn). repeat (split; [assumption|]). intros [Hx|[E'|[]]]; [contradiction|]. injection E' as -> ->. contradiction.
      * injection E' as <- <-. repeat (split; [assumption|]). intros [Hx|[E'|[]]]; [contradiction|]. congruence.
    + intros e Hi. apply in_app_or in Hi. destruct Hi as [Hi|[<-|[]]]; [auto|left; reflexivity].
Qed.

Definition key (p : Z * Z) : Z * Z := (Z.min (fst p) (snd p), Z.max (fst p) (snd p)).
Lemma key_eq a b c d : key (a, b) = key (c, d) <-> (a = c /\ b = d) \/ (a = d /\ b = c).
Proof. unfold key. cbn. split; [intros E; injection E as E1 E2; lia|intros [[-> ->]|[-> ->]]; [reflexivity|f_equal; lia]]. Qed.

(** what the first loop of the topology rule adds to the edges [es]; [done] are the links seen *)
Definition grew (S : dict Z Q) (es new : list fedge) (done : list (Z * Z)) : Prop :=
  (forall u v, In (u, v) (map fst new) -> In (key (u, v)) (map key done) /\ alive S u /\ ~ In (u, v) (map fst es) /\ ~ In (v, u) (map fst es)) /\
  (forall u v, In (key (u, v)) (map key done) -> alive S u -> alive S v -> In (u, v) (map fst (es ++ new)) \/ In (v, u) (map fst (es ++ new))).

Lemma Qpos_spec x : Qpos x = true <-> (0 < x)%Q.
Proof. unfold Qpos. rewrite negb_true_iff. split; intros Hx; [apply Qnot_le_lt; intros Hy; apply Qle_bool_iff in Hy; congruence|]. destruct (Qle_bool x 0) eqn:E; [|reflexivity]. apply Qle_bool_iff in E. exfalso. apply (Qlt_not_le _ _ Hx E). Qed.

Lemma grow_loop rows cols rand (S : dict Z Q) curr es links : 0 < rows -> 0 < cols -> grown rows cols curr es -> NoDup (map key links) ->
  (forall i j, In (i, j) links -> 0 <= i < rows * cols /\ 0 <= j < rows * cols /\ beside rows cols i j = true) ->
  (forall v, 0 <= v < rows * cols -> exists a, dget S v = Some a) ->
  forall k, exists k' n' new, rfold (grow rand curr S) links (k, copy curr) = Ok (k', n') /\ grown rows cols n' (es ++ new) /\ grew S es new links.
Proof.
  intros Hr Hc Hcurr Hnd Hl Hcov k0.
  assert (Hgen : forall rest done k n new, links = done ++ rest -> grown rows cols n (es ++ new) -> grew S es new done ->
    exists k' n' new', rfold (grow rand curr S) rest (k, n) = Ok (k', n') /\ grown rows cols n' (es ++ new') /\ grew S es new' links).
  { induction rest as [|[i j] rest IH]; intros done k n new El Hn Hg; [rewrite app_nil_r in El; subst done; exists k, n, new; auto|].
    destruct (Hl i j) as (Hi & Hj & Hb); [rewrite El; apply in_or_app; right; left; reflexivity|].
    destruct (Hcov i Hi) as [Si Ei]. destruct (Hcov j Hj) as [Sj Ej]. cbn [rfold].
    assert (Hnew : ~ In (key (i, j)) (map key done)).
    { rewrite El, map_app in Hnd. cbn in Hnd. apply NoDup_remove_2 in Hnd. intros Hx. apply Hnd, in_or_app. left. assumption. }
    assert (Hfresh : forall u v, key (u, v) = key (i, j) -> ~ In (u, v) (map fst new)).
    { intros u v Ek Hx. apply (proj1 Hg) in Hx. destruct Hx as [Hx _]. rewrite Ek in Hx. contradiction. }
    pose proof Hcurr as (HRc & _ & Hsc).
    (* nothing is added for this link *)
    assert (Hskip : forall k1, (alive S i -> alive S j -> In (i, j) (map fst es) \/ In (j, i) (map fst es)) ->
      exists k' n' new', rfold (grow rand curr S) rest (k1, n) = Ok (k', n') /\ grown rows cols n' (es ++ new') /\ grew S es new' links).
    { intros k1 Hx. apply (IH (done ++ [(i, j)]) k1 n new); [rewrite <- app_assoc; assumption|assumption|]. destruct Hg as [G1 G2]. split.
      - intros u v Hi'. destruct (G1 u v Hi') as (K1 & K2). split; [|assumption]. rewrite map_app. apply in_or_app. left. assumption.
      - intros u v Hi' Hau Hav. rewrite map_app in Hi'. apply in_app_or in Hi'. destruct Hi' as [Hi'|[E|[]]]; [apply G2; assumption|]. rewrite map_app, !in_app_iff. symmetry in E. apply key_eq in E. destruct E as [[-> ->]|[-> ->]]; specialize (Hx ltac:(assumption) ltac:(assumption)); tauto. }
    (* the link is grown from [a] to [b] *)
    assert (Hadd : forall k1 a b, (a = i /\ b = j \/ a = j /\ b = i) -> alive S a -> ~ In (i, j) (map fst es) -> ~ In (j, i) (map fst es) ->
      exists n1, mrun (add_edge a b []) n = Ok n1 /\ exists k' n' new', rfold (grow rand curr S) rest (k1, n1) = Ok (k', n') /\ grown rows cols n' (es ++ new') /\ grew S es new' links).
    { intros k1 a b Hab Ha N1 N2.
      assert (Hk : key (a, b) = key (i, j)) by (apply key_eq; tauto). assert (Hk' : key (b, a) = key (i, j)) by (apply key_eq; tauto).
      assert (Na : ~ In (a, b) (map fst es) /\ ~ In (b, a) (map fst es)) by (destruct Hab as [[Ea Eb]|[Ea Eb]]; rewrite Ea, Eb; tauto).
      destruct (grow_edge rows cols n (es ++ new) a b Hn) as (n1 & E1 & Hn1).
      + destruct Hab as [[Ea Eb]|[Ea Eb]]; rewrite Ea; assumption.
      + destruct Hab as [[Ea Eb]|[Ea Eb]]; rewrite Eb; assumption.
      + destruct Hab as [[Ea Eb]|[Ea Eb]]; rewrite Ea, Eb; [assumption|rewrite beside_sym; assumption].
      + rewrite map_app, in_app_iff. intros [Hx|Hx]; [tauto|]. exact (Hfresh a b Hk Hx).
      + rewrite map_app, in_app_iff. intros [Hx|Hx]; [tauto|]. exact (Hfresh b a Hk' Hx).
      + exists n1. split; [assumption|]. rewrite <- app_assoc in Hn1. apply (IH (done ++ [(i, j)]) k1 n1 (new ++ [(a, b, [])])); [rewrite <- app_assoc; assumption|assumption|]. destruct Hg as [G1 G2]. split.
        * intros u v Hi'. rewrite map_app in Hi'. apply in_app_or in Hi'. destruct Hi' as [Hi'|[E|[]]].
          -- destruct (G1 u v Hi') as (K1 & K2). split; [|assumption]. rewrite map_app. apply in_or_app. left. assumption.
          -- cbn in E. injection E as <- <-. split; [rewrite map_app; apply in_or_app; right; left; symmetry; assumption|]. tauto.
        * intros u v Hi' Hau Hav. rewrite app_assoc, !(map_app fst (es ++ new)), !(in_app_iff (map fst (es ++ new))). rewrite map_app in Hi'. apply in_app_or in Hi'. destruct Hi' as [Hi'|[E|[]]].
          -- destruct (G2 u v Hi' Hau Hav); tauto.
          -- rewrite <- Hk in E. symmetry in E. apply key_eq in E. cbn. destruct E as [[-> ->]|[-> ->]]; tauto. }
    assert (Hal : forall v a, dget S v = Some a -> Qpos a = true -> alive S v) by (intros v a E Hp; unfold alive, amount; rewrite E; apply Qpos_spec; assumption).
    assert (Hdead : forall v a, dget S v = Some a -> Qpos a = false -> ~ alive S v) by (intros v a E Hp Hx; unfold alive, amount in Hx; rewrite E in Hx; apply Qpos_spec in Hx; congruence).
    unfold grow at 1. rewrite Ei, Ej. cbn [of_opt rbind].
    destruct (has_edge curr i j) eqn:Eij; cbn [orb]; [cbn [rbind]; apply Hskip; intros _ _; left; apply (has_edge_in _ _ _ _ _ HRc); assumption|].
    destruct (has_edge curr j i) eqn:Eji; [cbn [rbind]; apply Hskip; intros _ _; right; apply (has_edge_in _ _ _ _ _ HRc); assumption|].
    apply (has_edge_out _ _ _ _ _ HRc) in Eij. apply (has_edge_out _ _ _ _ _ HRc) in Eji.
    assert (Hp : forall v, v = i \/ v = j -> exists p, grow_p curr v = Ok p).
    { intros v Hv. assert (Hrv : 0 <= v < rows * cols) by (destruct Hv as [->| ->]; assumption). unfold grow_p. rewrite (degree_mates rows cols curr es v Hcurr Hrv). cbn [rbind].
      assert (Hlt : (length (mates es v) < 4)%nat).
      { destruct Hv as [->| ->]; [apply (degree_lt rows cols es j i)|apply (degree_lt rows cols es i j)]; try assumption. rewrite beside_sym; assumption. }
      destruct (Z.eqb_spec (4 - Z.of_nat (length (mates es v))) 0); [lia|]. eexists. reflexivity. }
    destruct (Qpos Si) eqn:Pi, (Qpos Sj) eqn:Pj.
    - destruct (Qlt_bool (rand k) (1 # 2)).
      + destruct (Hadd (Datatypes.S k) i j) as (n1 & E1 & Hx); [auto|eauto|assumption|assumption|]. rewrite E1. cbn [rbind]. exact Hx.
      + destruct (Hadd (Datatypes.S k) j i) as (n1 & E1 & Hx); [auto|eauto|assumption|assumption|]. rewrite E1. cbn [rbind]. exact Hx.
    - destruct (Hp i) as [p Ep]; [auto|]. rewrite Ep. cbn [rbind]. destruct (Qlt_bool (rand k) p).
      + destruct (Hadd (Datatypes.S k) i j) as (n1 & E1 & Hx); [auto|eauto|assumption|assumption|]. rewrite E1. cbn [rbind]. exact Hx.
      + cbn [rbind]. apply Hskip. intros _ Hx. exfalso. exact (Hdead j Sj Ej Pj Hx).
    - destruct (Hp j) as [p Ep]; [auto|]. rewrite Ep. cbn [rbind]. destruct (Qlt_bool (rand k) p).
      + destruct (Hadd (Datatypes.S k) j i) as (n1 & E1 & Hx); [auto|eauto|assumption|assumption|]. rewrite E1. cbn [rbind]. exact Hx.
      + cbn [rbind]. apply Hskip. intros Hx. exfalso. exact (Hdead i Si Ei Pi Hx).
    - cbn [rbind]. apply Hskip. intros Hx. exfalso. exact (Hdead i Si Ei Pi Hx). }
  apply (Hgen links [] k0 (copy curr) []); [reflexivity| |split; intros u v []].
  rewrite app_nil_r. destruct Hcurr as (HR & _ & Hs). split; [exact HR|]. split; [reflexivity|assumption].
Qed.

(** ** Weights *)
Definition out_count (es : list fedge) (v : Z) : nat := length (from es v).
Definition weigh (es : list fedge) (e : fedge) : fedge := (fst e, [("weight", 1 / inject_Z (Z.of_nat (out_count es (fst (fst e)))))%Q]).

Lemma from_map (es : list fedge) (f : fedge -> fedge) v : (forall e, fst (f e) = fst e) -> from (map f es) v = map f (from es v).
Proof. intros Hf. unfold from. induction es as [|e es IH]; [reflexivity|]. cbn [map filter]. assert (Es : src (f e) = src e) by (unfold src; rewrite Hf; reflexivity). rewrite Es. destruct (eqb (src e) v); cbn [map]; rewrite IH; reflexivity. Qed.

Lemma reweigh_loop rows cols n es : grown rows cols n es -> exists n', rfold reweigh (edges n) n = Ok n' /\ grown rows cols n' (map (weigh es) es).
Proof.
  intros Hn. pose proof Hn as (HR & Hrot & Hnd & Hs & Hd). pose proof (edges_R _ _ HR) as Hperm. cbn [g_edges] in Hperm.
  set (upd := fun (done : list fedge) (e : fedge) => if in_dec zz_dec (fst e) (map fst done) then weigh es e else e).
  assert (Hfst : forall done e, fst (upd done e) = fst e) by (intros done e; unfold upd; destruct (in_dec _ _ _); reflexivity).
  assert (Hmf : forall done, map fst (map (upd done) es) = map fst es) by (intros done; rewrite map_map; apply map_ext; intros; apply Hfst).
  assert (Hsane : forall done, sane rows cols (map (upd done) es)).
  { intros done. split; [rewrite Hmf; assumption|]. split; [rewrite Hmf; assumption|]. intros e He. apply in_map_iff in He. destruct He as (e0 & <- & He). unfold upd. destruct (in_dec _ _ _); [right; eexists; reflexivity|auto]. }
  assert (Hgen : forall rest done m, Permutation (done ++ rest) es -> grown rows cols m (map (upd done) es) ->
    exists m', rfold reweigh rest m = Ok m' /\ grown rows cols m' (map (upd (done ++ rest)) es)).
  { induction rest as [|e rest IH]; intros done m Hp Hm; [rewrite app_nil_r; exists m; auto|]. cbn [rfold]. destruct e as [[i j] a].
    assert (Hin : In (i, j, a) es) by (eapply Permutation_in; [exact Hp|]; apply in_or_app; right; left; reflexivity).
    assert (Hij : In (i, j) (map fst es)) by (apply in_map_iff; exists (i, j, a); auto).
    destruct (Hs i j Hij) as (Hi & Hj & _). pose proof Hm as (HRm & Hrotm & _).
    unfold reweigh at 1. rewrite (out_degree_R _ _ _ HRm). assert (Hnode : is_nodeb (mkG (cells (rows * cols)) (map (upd done) es)) i = true) by (apply is_nodeb_true, is_cell; assumption). rewrite Hnode. cbn [rbind].
    change (edges_from (mkG (cells (rows * cols)) (map (upd done) es)) i) with (from (map (upd done) es) i). rewrite from_map, map_length by apply Hfst. fold (out_count es i).
    assert (Hpos : (0 < out_count es i)%nat).
    { unfold out_count. assert (Hx : In (i, j, a) (from es i)) by (unfold from; apply filter_In; split; [assumption|apply eqb_refl]). destruct (from es i); [destruct Hx|cbn; lia]. }
    destruct (Z.eqb_spec (Z.of_nat (out_count es i)) 0); [lia|]. set (w := (1 / inject_Z (Z.of_nat (out_count es i)))%Q).
    destruct (update_all_R m _ i j [("weight", w)] HRm) as (m1 & E1 & HR1 & Hrot1).
    - change (betw (map (upd done) es) i j <> []). apply betw_in. rewrite Hmf. assumption.
    - reflexivity.
    - unfold mrun. rewrite E1. cbn [rbind]. rewrite (app_assoc done [(i, j, a)] rest : done ++ (i, j, a) :: rest = (done ++ [(i, j, a)]) ++ rest) in *. apply IH; [assumption|]. split; [|split; [congruence|apply Hsane]].
      unfold spec_update_all in HR1. cbn [g_nodes g_edges] in HR1. rewrite map_map in HR1. erewrite map_ext_in; [exact HR1|]. intros e He. cbn beta.
      unfold src, tgt. rewrite Hfst. destruct e as [[x y] c]. cbn [fst snd].
      assert (Hdone : In (x, y) (map fst (done ++ [(i, j, a)])) <-> In (x, y) (map fst done) \/ (x = i /\ y = j)).
      { rewrite map_app, in_app_iff. cbn. split; intros [Hx|Hx]; auto; [destruct Hx as [Hx|[]]; injection Hx as -> ->; auto|destruct Hx as [-> ->]; auto]. }
      destruct (eqb_spec x i) as [->|Hxi]; [destruct (eqb_spec y j) as [->|Hyj]|]; cbn [andb].
      + unfold upd at 1. destruct (in_dec _ _ _) as [_|Hno]; [|exfalso; apply Hno, Hdone; auto].
        unfold weigh at 1. cbn [fst]. fold w. f_equal. unfold upd. destruct (in_dec _ _ _); [cbn [weigh dat snd fst]; unfold dupdate; cbn; unfold w; reflexivity|]. unfold dat. cbn [snd]. destruct (Hd _ He) as [Hc|[w' Hc]]; unfold dat in Hc; cbn [snd] in Hc; rewrite Hc; reflexivity.
      + unfold upd. cbn [fst]. destruct (in_dec _ _ (map fst (done ++ _))) as [Hx|Hx], (in_dec _ _ (map fst done)) as [Hy|Hy]; try reflexivity; exfalso; tauto.
      + unfold upd. cbn [fst]. destruct (in_dec _ _ (map fst (done ++ _))) as [Hx|Hx], (in_dec _ _ (map fst done)) as [Hy|Hy]; try reflexivity; exfalso; tauto. }
  destruct (Hgen (edges n) [] n) as (n' & E & Hn').
  - assumption.
  - erewrite map_ext; [rewrite map_id; exact Hn|]. intros e. unfold upd. destruct (in_dec _ _ _) as [[]|]; reflexivity.
  - exists n'. split; [assumption|]. cbn [app] in Hn'. erewrite map_ext_in; [exact Hn'|]. intros e He. cbn beta. unfold upd. destruct (in_dec _ _ _) as [|Hno]; [reflexivity|]. exfalso. apply Hno, in_map. eapply Permutation_in; [symmetry; exact Hperm|assumption].
Qed.
