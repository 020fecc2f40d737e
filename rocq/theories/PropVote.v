(** C112: the small-world density classification demo is voting on an undirected network, and voting settles. *)
From Verif Require Import Py PyFacts ListFacts Network Topology Evolve EvolveSpec EvolveProofs EvolveStatic Rules CaSpec CaRun CaNets EcaSpec HopfieldProofs SandpileProofs WattsStrogatz PropSmallWorld PropCa RevSpec PropReversible DensitySpec DensityProofs PropDensity VoteSpec VoteProofs Vote VoteRun.
Open Scope string_scope.
Open Scope list_scope.
Open Scope Z_scope.

Lemma undirected_perm vs vs' nb : NoDup vs' -> (forall v, In v vs' <-> In v vs) -> undirected vs nb -> undirected vs' nb.
Proof. intros Hnd Hv [H1 H2 H3 H4]. split; [exact Hnd|intros v Hi; apply H2, Hv, Hi|intros v w Hi Hw; apply Hv, (H3 v w); [apply Hv, Hi|exact Hw]|intros v w Hi; apply H4, Hv, Hi]. Qed.
Lemma degrees_perm vs vs' nb : NoDup vs -> NoDup vs' -> (forall v, In v vs' <-> In v vs) -> degrees vs' nb = degrees vs nb.
Proof. intros H H' Hv. unfold degrees. apply zsum_map_perm. apply NoDup_Permutation; [exact H'|exact H|exact Hv]. Qed.

(** [hs] shows the states [st] of the nodes 0 .. n-1, [st] starts with [init] and every step is a vote *)
Definition voted (n : Z) (nb : Z -> list Z) (init : list Z) (hs : list (dict Z Z)) (st : nat -> Z -> Z) : Prop :=
  (forall i S v, nth_error hs i = Some S -> 0 <= v < n -> dget S v = Some (st i v) /\ bit (st i v)) /\ (forall v, 0 <= v < n -> st 0%nat v = cell_of init v) /\
  forall i, (Datatypes.S i < length hs)%nat -> votes (fun v => 0 <= v < n) nb (st i) (st (Datatypes.S i)).

Lemma voted_run n nb init hs vs c : 0 < n -> (forall v, In v vs <-> 0 <= v < n) -> Forall (holds_bits vs) hs -> nth_error hs 0 = Some c -> (forall v, 0 <= v < n -> dget c v = Some (cell_of init v)) -> chained (fun v => In v vs) nb hs -> voted n nb init hs (states hs).
Proof.
  intros Hn Hvs Hb Hz Hc Hch. split; [|split].
  - intros i S v E Hv. rewrite Forall_forall in Hb. destruct (Hb S (nth_error_In _ _ E) v (proj2 (Hvs v) Hv)) as (a & Ea & Ha). unfold states. rewrite E, (val_some _ _ _ Ea). auto.
  - intros v Hv. unfold states. rewrite Hz. apply val_some, Hc, Hv.
  - intros i Hi v Hv. apply (states_votes (fun v => In v vs) nb hs i Hch Hi). apply Hvs, Hv.
Qed.
Lemma holds_init {V BA BN} (W : env Z V Z BA BN) n vs init : (forall i, e_lab W i = Z.of_nat i) -> (forall v, In v vs <-> 0 <= v < n) -> Z.of_nat (length init) = n -> Forall bit init ->
  (forall v, 0 <= v < n -> dget (to_dict W (CList init)) v = Some (cell_of init v)) -> holds_bits vs (to_dict W (CList init)).
Proof. intros Hlab Hvs Hl Hb Hd v Hv. apply Hvs in Hv. exists (cell_of init v). split; [apply Hd, Hv|]. rewrite Forall_forall in Hb. apply Hb. apply nth_In. lia. Qed.
Lemma voted_zero n nb init hs st : voted n nb init hs st -> (0 < length hs)%nat -> forall v, 0 <= v < n -> bit (st 0%nat v).
Proof. intros (H & _ & _) Hl v Hv. destruct (nth_error hs 0) as [S0|] eqn:E; [|apply nth_error_None in E; lia]. apply (H 0%nat S0 v E Hv). Qed.

(** in every undirected network, whatever is drawn: the number of times that a node which is not tied leaves the state it had two timesteps before is at most half of the sum of the degrees *)
Theorem C112_turns n nb init hs st K : undirected (zrange 0 n) nb -> voted n nb init hs st -> (Datatypes.S K < length hs)%nat ->
  2 * Z.of_nat (turns (zrange 0 n) nb st K) <= degrees (zrange 0 n) nb.
Proof.
  intros Hu Hv HK. pose proof (energy_run (zrange 0 n) nb Hu st K) as H. assert (0 <= zsum (map (fun v => Z.abs (pull nb (st 0%nat) v)) (zrange 0 n))) by (apply zsum_nonneg; intros; lia).
  enough (zsum (map (fun v => Z.abs (pull nb (st 0%nat) v)) (zrange 0 n)) + 2 * Z.of_nat (turns (zrange 0 n) nb st K) <= degrees (zrange 0 n) nb) by lia. apply H.
  - intros v Hi. apply in_zrange in Hi. apply (voted_zero _ _ _ _ _ Hv ltac:(lia)). lia.
  - intros k Hk v Hi. apply in_zrange in Hi. destruct Hv as (_ & _ & Hv). apply (Hv k); lia.
Qed.
Print Assumptions C112_turns.

(** without ties, as when all degrees are odd: from half of (the sum of the degrees minus the number of nodes) on, every state is that of two timesteps before *)
Theorem C112_two_cycle n nb init hs st : 0 <= n -> undirected (zrange 0 n) nb -> voted n nb init hs st -> (forall v, 0 <= v < n -> Z.odd (deg nb v) = true) ->
  forall K, degrees (zrange 0 n) nb - n <= 2 * Z.of_nat K -> (K + 2 < length hs)%nat -> forall v, 0 <= v < n -> st (K + 2)%nat v = st K v.
Proof.
  intros Hn Hu Hv Hodd K HK HKl v Hr. replace (K + 2)%nat with (Datatypes.S (Datatypes.S K)) by lia. apply (period_two (zrange 0 n) nb Hu st K).
  - intros w Hi. apply in_zrange in Hi. apply (voted_zero _ _ _ _ _ Hv ltac:(lia)). lia.
  - intros k Hk w Hi. apply in_zrange in Hi. destruct Hv as (_ & _ & Hv). apply (Hv k); lia.
  - intros k w _ Hi. apply in_zrange in Hi. unfold tied. apply Z.eqb_neq. intros E. specialize (Hodd w ltac:(lia)). rewrite <- E in Hodd. rewrite Z.odd_mul in Hodd. discriminate.
  - rewrite length_zrange. rewrite Z.sub_0_r, Z2Nat.id by lia. exact HK.
  - apply in_zrange. lia.
Qed.
Print Assumptions C112_two_cycle.

(** unanimity stays, whatever is drawn *)
Theorem C112_unanimous n nb init hs st a : voted n nb init hs st -> (forall v w, 0 <= v < n -> In w (nb v) -> 0 <= w < n) -> Forall (eq a) init -> Z.of_nat (length init) = n ->
  forall k, (k < length hs)%nat -> uniform n a (st k).
Proof.
  intros (_ & H0 & Hs) Hin Hinit Hl. induction k as [|k IH]; intros Hk v Hv.
  - rewrite H0 by exact Hv. rewrite Forall_forall in Hinit. symmetry. apply Hinit. apply nth_In. lia.
  - destruct (Hs k Hk v Hv) as (_ & _ & w & Hw & ->). apply IH; [lia|]. apply (Hin v w Hv Hw).
Qed.
Print Assumptions C112_unanimous.

Section Theorems.
  Context {I BA BN : Type} (W : env Z Z Z BA BN).
  Hypothesis Hlab : forall i, e_lab W i = Z.of_nat i.

  (** the demo: the network is undirected with n * (k / 2) links, the run is voting on it, and so at most n * (k / 2) turns happen in it, however long it is and whatever is drawn *)
  Theorem C112_run fuel gfuel coin pick draw n k net init T : 2 <= k < n -> watts_strogatz_graph gfuel coin pick n k = Ok net ->
    Z.of_nat (length init) = n -> Forall bit init -> 1 <= T -> (Z.to_nat T <= fuel)%nat ->
    exists nb uf traj hs st, small_world_density_demo (I := I) W fuel gfuel coin pick draw n k init T = Ok (uf, traj) /\ Z.of_nat (length hs) = T /\
      Forall2 (fun s S => activities W s = Ok (Some S)) traj hs /\ voted n nb init hs st /\
      undirected (zrange 0 n) nb /\ (forall v w, 0 <= v < n -> (In w (nb v) <-> edge net w v = Ok [[("weight", 1)]])) /\ (forall v, 0 <= v < n -> nb v <> []) /\
      degrees (zrange 0 n) nb = 2 * (n * (k / 2)) /\ forall K, Z.of_nat K + 1 < T -> Z.of_nat (turns (zrange 0 n) nb st K) <= n * (k / 2).
  Proof.
    intros Hk E Hl Hb HT Hfu. destruct (watts_undirected gfuel coin pick n k net Hk E) as (nb & Hnd & Hnodes & Hcl & Hnb & Hu & Hdeg & Hedge).
    assert (Hd : forall v, 0 <= v < n -> dget (to_dict W (CList init)) v = Some (cell_of init v)) by (intros v Hv; apply (dget_list W Hlab); lia).
    destruct (vote_run (I := I) W fuel 0%nat net nb (CList init) T draw Hnd HT Hfu) as (uf & traj & hs & Er & Hlh & Hf & Hbits & Hz & Hch).
    - cbn [to_dict]. unfold enumerate. rewrite map_length, combine_length, seq_length, Nat.min_id. pose proof (len_of_nodes net n ltac:(lia) Hnd Hnodes). lia.
    - exact Hcl.
    - exact Hnb.
    - apply (holds_init W n); try assumption.
    - pose proof (voted_run n nb init hs (nodes net) _ ltac:(lia) Hnodes Hbits Hz Hd Hch) as Hvoted.
      assert (Hu' : undirected (zrange 0 n) nb) by (apply (undirected_perm (nodes net)); [apply NoDup_zrange|intros v; rewrite in_zrange, Hnodes; lia|exact Hu]).
      assert (Hdeg' : degrees (zrange 0 n) nb = 2 * (n * (k / 2))) by (rewrite <- Hdeg; apply degrees_perm; [exact Hnd|apply NoDup_zrange|intros v; rewrite in_zrange, Hnodes; lia]).
      exists nb, uf, traj, hs, (states hs). split; [unfold small_world_density_demo; rewrite E; exact Er|]. split; [exact Hlh|]. split; [|split; [exact Hvoted|split; [exact Hu'|split; [|split; [|split; [exact Hdeg'|]]]]]].
      + assert (Hne : forall S, In S hs -> S <> []) by (intros S HS; apply In_nth_error in HS; destruct HS as [i Ei]; intros ->; destruct Hvoted as (Hx & _); specialize (Hx i [] 0 Ei ltac:(lia)); destruct Hx; discriminate).
        clear - Hf Hne. induction Hf as [|s S traj hs Es Hf IH]; [constructor|]. constructor; [|apply IH; intros S' HS'; apply Hne; right; exact HS']. rewrite Es. destruct S; [exfalso; apply (Hne []); [left|]; reflexivity|reflexivity].
      + intros v w Hv. apply Hedge, Hnodes, Hv.
      + intros v Hv. apply Hnb, Hnodes, Hv.
      + intros K HK. pose proof (C112_turns n nb init hs (states hs) K Hu' Hvoted ltac:(lia)). lia.
  Qed.

  Lemma ring_undirected n r : 3 <= n -> 0 <= r -> 2 * r + 1 <= n -> undirected (zrange 0 n) (ring_nb n r) /\ degrees (zrange 0 n) (ring_nb n r) = n * (2 * r + 1).
  Proof.
    intros Hn Hr H2. split.
    - split.
      + apply NoDup_zrange.
      + intros v _. unfold ring_nb. assert (Hg : forall l, NoDup l -> (forall d, In d l -> - r <= d <= r) -> NoDup (map (fun d => (v + d) mod n) l)).
        { induction l as [|d l IH]; intros Hd Hl; [constructor|]. inversion Hd as [|? ? H1 H3]; subst. cbn [map]. constructor; [|apply IH; [exact H3|intros; apply Hl; right; assumption]].
          intros Hx. apply in_map_iff in Hx. destruct Hx as (e & Ee & He). apply H1. enough (d = e) by congruence. pose proof (Hl d (or_introl eq_refl)). pose proof (Hl e (or_intror He)).
          pose proof (Z.div_mod (v + d) n ltac:(lia)). pose proof (Z.div_mod (v + e) n ltac:(lia)). set (q := (v + d) / n - (v + e) / n). assert (Eq : n * q = d - e) by (unfold q; lia). assert (q = 0) by nia. nia. }
        apply Hg; [apply NoDup_zrange|]. intros d Hd. apply in_zrange in Hd. lia.
      + intros v w _ Hw. apply in_map_iff in Hw. destruct Hw as (d & <- & _). apply in_zrange. apply Z.mod_pos_bound. lia.
      + intros v w Hv Hw. apply in_map_iff in Hw. destruct Hw as (d & <- & Hd). apply in_zrange in Hd, Hv. apply in_map_iff. exists (- d). split; [|apply in_zrange; lia].
        rewrite Zplus_mod_idemp_l. replace (v + d + - d) with v by lia. apply Z.mod_small. lia.
    - unfold degrees. rewrite (zsum_ext _ (fun _ => 2 * r + 1)) by (intros v _; unfold deg; rewrite length_ring_nb by lia; lia).
      assert (E : forall l : list Z, zsum (map (fun _ => 2 * r + 1) l) = Z.of_nat (length l) * (2 * r + 1)) by (induction l as [|a l IH]; [reflexivity|]; cbn [map length]; rewrite zsum_cons, IH; lia).
      rewrite E, length_zrange. lia.
  Qed.

  (** the same rule on a ring of cells: nothing is drawn, and from timestep n * r on every state is that of two timesteps before *)
  Theorem C112_ring fuel draw n r init T : 3 <= n -> 0 <= r -> 2 * r + 1 <= n -> Z.of_nat (length init) = n -> Forall bit init -> 1 <= T -> (Z.to_nat T <= fuel)%nat ->
    exists net uf traj hs st, cellular_automaton n r true = Ok net /\ evolve W fuel 0%nat net (Some (CList init)) (Some T) None (voting_args (I := I) draw) = Ok (uf, traj) /\ Z.of_nat (length hs) = T /\
      Forall2 (fun s S => activities W s = Ok (shown_acts S)) traj hs /\ voted n (ring_nb n r) init hs st /\
      forall i, n * r <= Z.of_nat i -> Z.of_nat i + 2 < T -> forall v, 0 <= v < n -> st (i + 2)%nat v = st i v.
  Proof.
    intros Hn Hr H2r Hl Hb HT Hfu. destruct (ring_lattice n r Hn Hr H2r) as (net & E & Hlat). pose proof Hlat as (Hnd & Hnodes & Hcl & Hlen & Hnb & Hub).
    assert (Hd : forall v, 0 <= v < n -> dget (to_dict W (CList init)) v = Some (cell_of init v)) by (intros v Hv; apply (dget_list W Hlab); lia).
    destruct (vote_run (I := I) W fuel 0%nat net (ring_nb n r) (CList init) T draw Hnd HT Hfu) as (uf & traj & hs & Er & Hlh & Hf & Hbits & Hz & Hch).
    - cbn [to_dict]. unfold enumerate. rewrite map_length, combine_length, seq_length, Nat.min_id. lia.
    - exact Hcl.
    - intros v Hv. apply Hnodes in Hv. split; [apply Hnb, Hv|]. split; [|intros w Hw; apply Hnodes, (Hub v w Hv Hw)]. intros E0. apply (f_equal (@length Z)) in E0. rewrite length_ring_nb in E0 by lia. cbn in E0. lia.
    - apply (holds_init W n); assumption.
    - pose proof (voted_run n (ring_nb n r) init hs (nodes net) _ ltac:(lia) Hnodes Hbits Hz Hd Hch) as Hvoted. destruct (ring_undirected n r Hn Hr H2r) as [Hu Hdeg].
      exists net, uf, traj, hs, (states hs). split; [exact E|]. split; [exact Er|]. split; [exact Hlh|]. split; [exact Hf|]. split; [exact Hvoted|].
      intros i Hi HiT v Hv. apply (C112_two_cycle n (ring_nb n r) init hs (states hs)); try assumption; try lia.
      intros w Hw. unfold deg. rewrite length_ring_nb, Z2Nat.id by lia. rewrite Z.add_comm, Z.odd_add, Z.odd_mul. reflexivity.
  Qed.
End Theorems.
Print Assumptions C112_run.
Print Assumptions C112_ring.

(** ** The demo does not always find the majority *)
(** with these random numbers the links that leave the two halves 0 .. 73 and 74 .. 148 are moved into them *)
Definition split_coin (j u : Z) : bool := ((u <? 74) && (74 <=? u + j)) || (149 <=? u + j).
Definition split_targets : list Z := flat_map (fun j => map (fun u => u - 20 - 5 * j) (filter (split_coin j) (zrange 0 149))) [1; 2; 3; 4].
Definition split_pick (i : nat) : Z := nth i split_targets 0.
Definition halves : list Z := repeat 1 74 ++ repeat 0 75.
Definition separate (net : network Z Z) : bool := forallb (fun v => forallb (fun w => match edge net w v with Ok _ => Bool.eqb (v <? 74) (w <? 74) | Err _ => true end) (zrange 0 149)) (zrange 0 149).
Lemma split_network : exists net, watts_strogatz_graph 100 split_coin split_pick 149 8 = Ok net /\ separate net = true.
Proof.
  assert (H : match watts_strogatz_graph 100 split_coin split_pick 149 8 with Ok net => separate net | Err _ => false end = true) by (vm_compute; reflexivity).
  destruct (watts_strogatz_graph 100 split_coin split_pick 149 8) as [net|e]; [exists net; auto|discriminate].
Qed.
(** with the sizes of the demo there are outcomes of the rewiring and initial conditions (74 ones, 75 zeros) that nothing ever changes, whatever is drawn later and however long the run is *)
Lemma halves_stay : exists gfuel coin pick init net, watts_strogatz_graph gfuel coin pick 149 8 = Ok net /\ length init = 149%nat /\ Forall bit init /\ majority 149 (cell_of init) = 0 /\ cell_of init 0 = 1 /\
  forall nb hs st, (forall v w, 0 <= v < 149 -> (In w (nb v) <-> edge net w v = Ok [[("weight", 1)]])) -> (forall v w, 0 <= v < 149 -> In w (nb v) -> 0 <= w < 149) -> voted 149 nb init hs st ->
    forall k v, (k < length hs)%nat -> 0 <= v < 149 -> st k v = cell_of init v.
Proof.
  destruct split_network as (net & E & Hsep). exists 100%nat, split_coin, split_pick, halves, net. split; [exact E|]. split; [reflexivity|].
  split; [apply Forall_app; split; apply Forall_forall; intros a Ha; apply repeat_spec in Ha; subst; [right|left]; reflexivity|]. split; [vm_compute; reflexivity|]. split; [reflexivity|].
  intros nb hs st Hnb Hin (_ & H0 & Hs). assert (Hc : forall v, 0 <= v < 149 -> cell_of halves v = if v <? 74 then 1 else 0).
  { intros v Hv. assert (Hall : forallb (fun v => cell_of halves v =? if v <? 74 then 1 else 0) (zrange 0 149) = true) by (vm_compute; reflexivity). rewrite forallb_forall in Hall. apply Z.eqb_eq. apply Hall. apply in_zrange. lia. }
  assert (Hsame : forall v w, 0 <= v < 149 -> In w (nb v) -> cell_of halves w = cell_of halves v).
  { intros v w Hv Hw. pose proof (Hin v w Hv Hw) as Hwr. apply Hnb in Hw; [|exact Hv]. unfold separate in Hsep. rewrite forallb_forall in Hsep. specialize (Hsep v ltac:(apply in_zrange; lia)). rewrite forallb_forall in Hsep. specialize (Hsep w ltac:(apply in_zrange; lia)). rewrite Hw in Hsep.
    rewrite !Hc by assumption. apply Bool.eqb_prop in Hsep. rewrite Hsep. reflexivity. }
  induction k as [|k IH]; intros v Hk Hv; [apply H0, Hv|]. destruct (Hs k Hk v Hv) as (_ & _ & w & Hw & ->). rewrite (IH w ltac:(lia) (Hin v w Hv Hw)). apply Hsame; assumption.
Qed.
Theorem C112_demo_refuted {I BA BN} (W : env Z Z Z BA BN) : (forall i, e_lab W i = Z.of_nat i) ->
  exists gfuel coin pick init, length init = 149%nat /\ Forall bit init /\ majority 149 (cell_of init) = 0 /\ cell_of init 0 = 1 /\
    forall fuel draw T, 1 <= T -> (Z.to_nat T <= fuel)%nat -> exists uf traj hs, small_world_density_demo (I := I) W fuel gfuel coin pick draw 149 8 init T = Ok (uf, traj) /\ Z.of_nat (length hs) = T /\
      Forall2 (fun s S => activities W s = Ok (Some S)) traj hs /\ forall k S v, nth_error hs k = Some S -> 0 <= v < 149 -> dget S v = Some (cell_of init v).
Proof.
  intros Hlab. destruct halves_stay as (gfuel & coin & pick & init & net & E & Hl & Hb & Hm & H0 & Hstay). exists gfuel, coin, pick, init. split; [exact Hl|]. split; [exact Hb|]. split; [exact Hm|]. split; [exact H0|].
  intros fuel draw T HT Hfu. destruct (C112_run (I := I) W Hlab fuel gfuel coin pick draw 149 8 net init T ltac:(lia) E ltac:(rewrite Hl; reflexivity) Hb HT Hfu) as (nb & uf & traj & hs & st & Er & Hlh & Hf & Hvoted & Hu & Hnb & _).
  exists uf, traj, hs. split; [exact Er|]. split; [exact Hlh|]. split; [exact Hf|]. intros k S v Ek Hv. pose proof Hvoted as (Hshow & _). destruct (Hshow k S v Ek Hv) as [-> _]. f_equal.
  apply (Hstay nb hs st Hnb); [|exact Hvoted|apply nth_error_Some; congruence|exact Hv]. intros x w Hx Hw. apply in_zrange. apply (ud_in _ _ Hu x w); [apply in_zrange; lia|exact Hw].
Qed.
Print Assumptions C112_demo_refuted.

(** ** Examples *)
(** the sizes of the demo: at most 596 turns *)
Example C112_sizes : 2 <= 8 < 149 /\ 149 * (8 / 2) = 596.
Proof. split; [lia|reflexivity]. Qed.
(** an undirected network with odd degrees: the complete graph on four nodes; voting on it from one dissenter *)
Example C112_nonvacuous : let nb := fun v => filter (fun w => negb (w =? v)) (zrange 0 4) in undirected (zrange 0 4) nb /\ (forall v, 0 <= v < 4 -> Z.odd (deg nb v) = true) /\ degrees (zrange 0 4) nb = 12 /\
  votes (fun v => 0 <= v < 4) nb (cell_of [1; 0; 0; 0]) (cell_of [0; 0; 0; 0]).
Proof.
  cbv zeta. assert (Hcase : forall P : Z -> Prop, P 0 -> P 1 -> P 2 -> P 3 -> forall v, 0 <= v < 4 -> P v) by (intros P H0 H1 H2 H3 v Hv; assert (v = 0 \/ v = 1 \/ v = 2 \/ v = 3) as [-> |[-> |[-> | ->]]] by lia; assumption).
  split; [|split; [apply Hcase; reflexivity|split; [reflexivity|]]].
  - split; [apply NoDup_zrange|intros v _; apply NoDup_filter, NoDup_zrange|intros v w _ Hw; apply filter_In in Hw; tauto|].
    intros v w Hv Hw. apply filter_In in Hw. apply filter_In. split; [exact Hv|]. destruct Hw as [_ Hw]. rewrite Z.eqb_sym. exact Hw.
  - intros v Hv. pattern v. apply Hcase; [| | | |exact Hv]; (split; [intros _; reflexivity|split; [vm_compute; discriminate|]]); [exists 1|exists 2|exists 1|exists 1]; (split; [vm_compute; tauto|reflexivity]).
Qed.
(** turns happen: two steps from [1; 0; 0; 0] node 0 has turned *)
Example C112_turn : turned (fun v => filter (fun w => negb (w =? v)) (zrange 0 4)) (fun k => match k with O => cell_of [1; 0; 0; 0] | _ => cell_of [0; 0; 0; 0] end) 0 0 = true.
Proof. reflexivity. Qed.
(** a cycle of length two really occurs: the alternating row on a ring of four, seen through the next cells only *)
Example C112_alternates : let nb := fun v => [(v - 1) mod 4; (v + 1) mod 4] in
  votes (fun v => 0 <= v < 4) nb (cell_of [1; 0; 1; 0]) (cell_of [0; 1; 0; 1]) /\ votes (fun v => 0 <= v < 4) nb (cell_of [0; 1; 0; 1]) (cell_of [1; 0; 1; 0]).
Proof.
  cbv zeta. assert (Hcase : forall P : Z -> Prop, P 0 -> P 1 -> P 2 -> P 3 -> forall v, 0 <= v < 4 -> P v) by (intros P H0 H1 H2 H3 v Hv; assert (v = 0 \/ v = 1 \/ v = 2 \/ v = 3) as [-> |[-> |[-> | ->]]] by lia; assumption).
  split; intros v Hv; pattern v; (apply Hcase; [| | | |exact Hv]); (split; [vm_compute; try discriminate; reflexivity|split; [vm_compute; try discriminate; reflexivity|]]); eexists; (split; [left; reflexivity|reflexivity]).
Qed.
