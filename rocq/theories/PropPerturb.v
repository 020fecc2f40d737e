(** * C107: perturbations, and the scripts of demos/perturbation_demo *)
From Coq Require Import QArith Qabs Lqa.
From Verif Require Import Py PyFacts ListFacts Network Topology TopologySpec Evolve EvolveSpec EvolveProofs EvolveProofs2 EvolveProofs3 EvolveStatic Rules RulesSpec RulesProofs Utils TuringSpec TuringProofs2 PropTuring Fungal.
From Verif Require Import CaSpec CaRun CaNets EcaSpec EcaProofs PropRules PropCa PropEca RevSpec PropReversible PertSpec PertRun Perturb PropEvolve.
Open Scope string_scope.
Open Scope list_scope.
Open Scope Z_scope.

(** ** perturbing is composing *)
Theorem C107_composed : forall {L V A U I BA BN : Type} `{EqD L} `{EqD A} (W : env L V A BA BN) fuel (u0 : U) n initial ts (inp : option (@input L V A U I)) (g : @args L V A U I) r p,
  g_memo g = false -> g_rule g = Some r -> g_pert g = Some p -> no_self_removal g ->
  evolve W fuel u0 n initial ts inp g = evolve W fuel u0 n initial ts inp (with_rule g (then_perturb r p)).
Proof. intros. apply fused; assumption. Qed.
Print Assumptions C107_composed.

Theorem C107_needs_a_rule : forall {L V A U I BA BN : Type} `{EqD L} `{EqD A} (W : env L V A BA BN) fuel (u0 : U) n initial ts (inp : option (@input L V A U I)) (g : @args L V A U I) p, g_rule g = None ->
  evolve W fuel u0 n initial ts inp (set_pert g p) = evolve W fuel u0 n initial ts inp (set_pert g None).
Proof. intros. apply unperturbed; assumption. Qed.
Print Assumptions C107_needs_a_rule.

(** with memoize the results of the rule are remembered, not the perturbed ones *)
Definition label_pert : @perturbation Z Z Z Z := fun u p => Ok (u, p_label p).
Definition const_rule : @rule Z Z Z Z Z := fun u x => Ok (u, mkOut 0 [] []).
Definition memo_args : @args Z Z Z Z Z := mkArgs (Some const_rule) None (Some label_pert) [] ACTIVITIES_FIRST true false true true true None.
Definition ring3 : network Z Z := match cellular_automaton 3 1 true with Ok n => n | Err _ => empty_network end.
Definition read_all {X} (e : res (X * list (@state Z Z Z unit unit))) : res (list (option (dict Z Z))) := ' (_, tr) <- e ;; rmap (fun s => activities W0 s) tr.
Theorem C107_memo_refuted : exists (g : @args Z Z Z Z Z) r p, g_memo g = true /\ g_rule g = Some r /\ g_pert g = Some p /\ no_self_removal g /\
  read_all (evolve W0 9 0 ring3 (Some (CList [0; 0; 0])) (Some 2) None g) <> read_all (evolve W0 9 0 ring3 (Some (CList [0; 0; 0])) (Some 2) None (with_rule g (then_perturb r p))).
Proof.
  exists memo_args, const_rule, label_pert. split; [reflexivity|]. split; [reflexivity|]. split; [reflexivity|]. split.
  - intros r u x u' o Er Eo. injection Er as <-. injection Eo as _ <-. intros [].
  - vm_compute. discriminate.
Qed.
Print Assumptions C107_memo_refuted.

(** ** perturbation_eca_demo.py *)
Lemma bit_of l n v : Z.of_nat (length l) = n -> Forall bit l -> 0 <= v < n -> bit (cell_of l v).
Proof. intros Hl Hb Hv. rewrite Forall_forall in Hb. apply Hb. unfold cell_of. apply nth_In. lia. Qed.
Lemma cell_nth n st T k v : 0 <= v < n -> (k < T)%nat -> cell_of (nth k (rows n st T) []) v = st k v.
Proof.
  intros Hv Hk. assert (E : nth_error (rows n st T) k = Some (row n (st k))) by (unfold rows; rewrite nth_error_map, (nth_error_nth' _ 0%nat), seq_nth by (rewrite ?seq_length; exact Hk); reflexivity).
  rewrite (nth_error_nth _ _ [] E). apply cell_of_row, Hv.
Qed.

Section Eca.
  Context {I BA BN : Type} (W : env Z Z Z BA BN) (Hlab : forall i, e_lab W i = Z.of_nat i).
  Notation demo := (perturbation_eca_demo (I := I) W).

  Theorem C107_eca : forall fuel n N c d init T, 3 <= n -> 0 <= N < 256 -> Z.of_nat (length init) = n -> Forall bit init -> (forall k, bit (d k)) -> 1 <= T -> (Z.to_nat T <= fuel)%nat ->
    demo fuel n N c d init T = Ok (rows n (pert_state (ring_nb n 1) (eca N) (overwrite c d) (cell_of init)) (Z.to_nat T)).
  Proof.
    intros fuel n N c d init T Hn HN Hli Hbi Hd HT Hf. destruct (ring_lattice n 1 Hn ltac:(lia) ltac:(lia)) as (net & E & Hlat). pose proof Hlat as (Hnd & Hnodes & Hcl & Hlen & Hnb & Hub).
    pose proof (shows_list W init Hlab) as (S1 & S2 & S3). rewrite Hli in S2, S3.
    destruct (pert_ca_run (I := I) W fuel 0%nat net (ring_nb n 1) (CList init) T (pert_args (nks_ca_rule N) (perturb c d)) (nks_ca_rule N) (eca N) (perturb c d) (overwrite c d) bit
      (fun k done u => In c (nodes net) -> u = (k + (if in_dec Z.eq_dec c done then 1 else 0))%nat) (cell_of init)) as (hs & (uf & traj & Ev & Hl & Hshow) & Hz & Hkeys & _ & Hk).
    - repeat split; reflexivity.
    - exact Hnd.
    - exact HT.
    - exact Hf.
    - cbn [to_dict]. unfold enumerate. rewrite map_length, combine_length, seq_length. lia.
    - exact Hcl.
    - intros v Hv. apply Hnb, Hnodes, Hv.
    - intros v Hv. apply Hnodes in Hv. rewrite S3 by exact Hv. unfold cell_of. apply nth_error_nth'. lia.
    - intros v Hv. apply Hnodes in Hv. eapply bit_of; eassumption.
    - intros x Hx _ Ha Hla. split; [|apply bit_eca]. apply C30_testbit; [exact Ha|]. rewrite Hla, length_ring_nb by lia. exact HN.
    - intros k v a _ Ha. unfold overwrite. destruct (v =? c); [apply Hd|exact Ha].
    - intros _. destruct (in_dec _ c []) as [[]|]. reflexivity.
    - intros k done v rest u a i En Hu. unfold perturb, overwrite. cbn [p_label p_act].
      assert (Hv : ~ In v done) by (rewrite En in Hnd; apply NoDup_remove_2 in Hnd; intros Hin; apply Hnd, in_or_app; left; assumption).
      destruct (Z.eqb_spec v c) as [-> | Hne].
      + specialize (Hu ltac:(rewrite En; apply in_or_app; right; left; reflexivity)). destruct (in_dec Z.eq_dec c done); [contradiction|]. rewrite Nat.add_0_r in Hu. subst u.
        exists (Datatypes.S k). split; [reflexivity|]. intros _. destruct (in_dec Z.eq_dec c (done ++ [c])) as [|Hno]; [lia|exfalso; apply Hno, in_or_app; right; left; reflexivity].
      + exists u. split; [reflexivity|]. intros Hc. rewrite (Hu Hc). f_equal. destruct (in_dec Z.eq_dec c done) as [Hi|Hi], (in_dec Z.eq_dec c (done ++ [v])) as [Hj|Hj]; try reflexivity.
        * exfalso. apply Hj, in_or_app. left. exact Hi.
        * exfalso. apply in_app_or in Hj. destruct Hj as [Hj|[Hj|[]]]; [contradiction|congruence].
    - intros k u Hu Hc. rewrite (Hu Hc). destruct (in_dec Z.eq_dec c (nodes net)); [|contradiction]. destruct (in_dec Z.eq_dec c []) as [[]|]. lia.
    - unfold perturbation_eca_demo. rewrite E. cbn [rbind]. rewrite Ev. cbn [rbind].
      rewrite (read_rows W traj hs n (pert_state (ring_nb n 1) (eca N) (overwrite c d) (cell_of init)) ltac:(lia) Hshow).
      + do 2 f_equal. lia.
      + intros [|k] S Ek; [rewrite Hz in Ek; injection Ek as <-; split; assumption|]. unfold dkeys. rewrite (Hkeys k S Ek). split; assumption.
      + intros k S v Ek Hv. apply (Hk k S Ek v). apply Hnodes, Hv.
  Qed.

  (** the perturbed cell shows the draws *)
  Theorem C107_column : forall fuel n N c d init T R k, 3 <= n -> 0 <= N < 256 -> Z.of_nat (length init) = n -> Forall bit init -> (forall k, bit (d k)) -> 1 <= T -> (Z.to_nat T <= fuel)%nat ->
    0 <= c < n -> demo fuel n N c d init T = Ok R -> (k + 1 < Z.to_nat T)%nat -> cell_of (nth (k + 1) R []) c = d k.
  Proof.
    intros fuel n N c d init T R k Hn HN Hli Hbi Hd HT Hf Hc E Hk. rewrite (C107_eca fuel n N c d init T) in E by assumption. injection E as <-. rewrite cell_nth by assumption.
    rewrite Nat.add_1_r. cbn [pert_state]. unfold overwrite. rewrite Z.eqb_refl. reflexivity.
  Qed.

  Lemma cone n N c d d' s j k v : 0 < n -> 0 <= v < n -> (forall i, (i < j)%nat -> d i = d' i) -> Z.of_nat k - 1 - Z.of_nat j < ring_distance n v c ->
    pert_state (ring_nb n 1) (eca N) (overwrite c d) s k v = pert_state (ring_nb n 1) (eca N) (overwrite c d') s k v.
  Proof.
    intros Hn Hv Hd Hfar. apply pert_ext. intros i w a Hi Hw. unfold overwrite. destruct (Z.eqb_spec w c) as [-> | ]; [|reflexivity]. apply Hd.
    destruct (ring_within n 1 _ v c Hn ltac:(lia) Hv Hw) as [Hle _]. lia.
  Qed.

  (** runs whose first [j] draws agree can only differ inside the light cone of the perturbed cell *)
  Theorem C107_light_cone : forall fuel n N c d d' init T R R' j k v, 3 <= n -> 0 <= N < 256 -> Z.of_nat (length init) = n -> Forall bit init -> (forall k, bit (d k)) -> (forall k, bit (d' k)) ->
    1 <= T -> (Z.to_nat T <= fuel)%nat -> demo fuel n N c d init T = Ok R -> demo fuel n N c d' init T = Ok R' ->
    (forall i, (i < j)%nat -> d i = d' i) -> (k < Z.to_nat T)%nat -> 0 <= v < n -> Z.of_nat k - 1 - Z.of_nat j < ring_distance n v c -> cell_of (nth k R []) v = cell_of (nth k R' []) v.
  Proof.
    intros fuel n N c d d' init T R R' j k v Hn HN Hli Hbi Hd Hd' HT Hf E E' Hj Hk Hv Hfar. rewrite (C107_eca fuel n N c d init T) in E by assumption. rewrite (C107_eca fuel n N c d' init T) in E' by assumption.
    injection E as <-. injection E' as <-. rewrite !cell_nth by assumption. eapply cone; try eassumption. lia.
  Qed.

  (** outside the cone nothing is perturbed *)
  Theorem C107_undisturbed : forall fuel n N c d init T R k v, 3 <= n -> 0 <= N < 256 -> Z.of_nat (length init) = n -> Forall bit init -> (forall k, bit (d k)) ->
    1 <= T -> (Z.to_nat T <= fuel)%nat -> demo fuel n N c d init T = Ok R -> (k < Z.to_nat T)%nat -> 0 <= v < n -> Z.of_nat k - 1 < ring_distance n v c ->
    cell_of (nth k R []) v = ca_state (ring_nb n 1) (eca N) k (cell_of init) v.
  Proof.
    intros fuel n N c d init T R k v Hn HN Hli Hbi Hd HT Hf E Hk Hv Hfar. rewrite (C107_eca fuel n N c d init T) in E by assumption. injection E as <-. rewrite cell_nth by assumption.
    rewrite <- pert_none. apply pert_ext. intros i w a Hi Hw. unfold overwrite. destruct (Z.eqb_spec w c) as [-> | ]; [|reflexivity].
    destruct (ring_within n 1 _ v c ltac:(lia) ltac:(lia) Hv Hw) as [Hle _]. lia.
  Qed.

  Lemma distance_right n c m : 0 < n -> 0 <= m < n -> 0 < m -> ring_distance n ((c + m) mod n) c = Z.min (n - m) m.
  Proof.
    intros Hn Hm Hp. unfold ring_distance. f_equal.
    - rewrite Zminus_mod_idemp_r. replace (c - (c + m)) with (- m) by lia. rewrite Z.mod_opp_l_nz by (rewrite ?Z.mod_small; lia). rewrite Z.mod_small; lia.
    - rewrite Zminus_mod_idemp_l. replace (c + m - c) with m by lia. apply Z.mod_small. lia.
  Qed.

  Lemma ring_nb3 n v : ring_nb n 1 v = [(v - 1) mod n; (v + 0) mod n; (v + 1) mod n].
  Proof. reflexivity. Qed.

  Lemma pert_bit n N c d s k v : 0 < n -> (forall k, bit (d k)) -> (forall v, 0 <= v < n -> bit (s v)) -> 0 <= v < n -> bit (pert_state (ring_nb n 1) (eca N) (overwrite c d) s k v).
  Proof. intros Hn Hd Hs Hv. destruct k; [apply Hs, Hv|]. cbn [pert_state]. unfold overwrite. destruct (v =? c); [apply Hd|apply bit_eca]. Qed.

  Lemma front n N c d d' s j m : 3 <= n -> 0 <= c < n -> left_permutive (eca N) -> (forall k, bit (d k)) -> (forall k, bit (d' k)) -> (forall v, 0 <= v < n -> bit (s v)) ->
    (forall i, (i < j)%nat -> d i = d' i) -> d j <> d' j -> 2 * Z.of_nat m < n ->
    pert_state (ring_nb n 1) (eca N) (overwrite c d) s (j + 1 + m) ((c + Z.of_nat m) mod n) <> pert_state (ring_nb n 1) (eca N) (overwrite c d') s (j + 1 + m) ((c + Z.of_nat m) mod n).
  Proof.
    intros Hn Hc Hperm Hd Hd' Hs Hj Hne. induction m as [|m IH]; intros Hm.
    - replace (j + 1 + 0)%nat with (Datatypes.S j) by lia. cbn [pert_state]. rewrite Z.add_0_r, Z.mod_small by lia. unfold overwrite. rewrite Z.eqb_refl. exact Hne.
    - specialize (IH ltac:(lia)). replace (j + 1 + Datatypes.S m)%nat with (Datatypes.S (j + 1 + m)) by lia. cbn [pert_state]. set (v := (c + Z.of_nat (Datatypes.S m)) mod n).
      assert (Hv : 0 <= v < n) by (apply Z.mod_pos_bound; lia).
      assert (Edist : ring_distance n v c = Z.min (n - Z.of_nat (Datatypes.S m)) (Z.of_nat (Datatypes.S m))) by (apply distance_right; lia).
      assert (Hvc : (v =? c) = false).
      { apply Z.eqb_neq. intros Ev. rewrite Ev in Edist. unfold ring_distance in Edist. rewrite Z.sub_diag, Z.mod_0_l in Edist by lia. lia. }
      assert (Eo : forall e k a, overwrite c e k v a = a) by (intros; unfold overwrite; rewrite Hvc; reflexivity).
      rewrite !Eo. unfold ca_next. rewrite ring_nb3. cbn [map].
      assert (E1 : (v - 1) mod n = (c + Z.of_nat m) mod n) by (unfold v; rewrite Zminus_mod_idemp_l; f_equal; lia).
      assert (E2 : (v + 0) mod n = v) by (rewrite Z.add_0_r; apply Z.mod_small; exact Hv).
      assert (E3 : (v + 1) mod n = (c + Z.of_nat (Datatypes.S (Datatypes.S m))) mod n) by (unfold v; rewrite Zplus_mod_idemp_l; f_equal; lia).
      rewrite E1, E2.
      assert (Hr : forall w, w = v \/ w = (v + 1) mod n -> pert_state (ring_nb n 1) (eca N) (overwrite c d) s (j + 1 + m) w = pert_state (ring_nb n 1) (eca N) (overwrite c d') s (j + 1 + m) w).
      { intros w Hw. apply (cone n N c d d' s j); [lia|destruct Hw as [-> | -> ]; [exact Hv|apply Z.mod_pos_bound; lia]|exact Hj|].
        destruct Hw as [-> | -> ]; [rewrite Edist; lia|]. rewrite E3, distance_right by lia. lia. }
      rewrite <- (Hr v), <- (Hr ((v + 1) mod n)) by auto.
      assert (Hb : forall e, (forall k, bit (e k)) -> forall w, 0 <= w < n -> bit (pert_state (ring_nb n 1) (eca N) (overwrite c e) s (j + 1 + m) w)) by (intros e He w Hw; apply pert_bit; try assumption; lia).
      apply Hperm; [apply Hb; [assumption|try exact Hv; apply Z.mod_pos_bound; lia] ..|exact IH].
  Qed.

  (** ... and if the rule is permutive on its left, the right edge of the cone is reached: the difference moves one cell to the right in every timestep *)
  Theorem C107_front : forall fuel n N c d d' init T R R' j m, 3 <= n -> 0 <= N < 256 -> left_permutive (eca N) -> Z.of_nat (length init) = n -> Forall bit init -> (forall k, bit (d k)) -> (forall k, bit (d' k)) ->
    1 <= T -> (Z.to_nat T <= fuel)%nat -> 0 <= c < n -> demo fuel n N c d init T = Ok R -> demo fuel n N c d' init T = Ok R' ->
    (forall i, (i < j)%nat -> d i = d' i) -> d j <> d' j -> 2 * Z.of_nat m < n -> (j + 1 + m < Z.to_nat T)%nat ->
    cell_of (nth (j + 1 + m) R []) ((c + Z.of_nat m) mod n) <> cell_of (nth (j + 1 + m) R' []) ((c + Z.of_nat m) mod n).
  Proof.
    intros fuel n N c d d' init T R R' j m Hn HN Hp Hli Hbi Hd Hd' HT Hf Hc E E' Hj Hne Hm HjT. rewrite (C107_eca fuel n N c d init T) in E by assumption. rewrite (C107_eca fuel n N c d' init T) in E' by assumption.
    injection E as <-. injection E' as <-. rewrite !cell_nth by (try assumption; apply Z.mod_pos_bound; lia). apply front; try assumption. intros v Hv. eapply bit_of; eassumption.
  Qed.

  (** so the last row tells all the draws *)
  Theorem C107_draws_determined : forall fuel n N c d d' init T R R', 3 <= n -> 0 <= N < 256 -> left_permutive (eca N) -> Z.of_nat (length init) = n -> Forall bit init -> (forall k, bit (d k)) -> (forall k, bit (d' k)) ->
    1 <= T -> (Z.to_nat T <= fuel)%nat -> 0 <= c < n -> 2 * (T - 2) < n -> demo fuel n N c d init T = Ok R -> demo fuel n N c d' init T = Ok R' ->
    nth (Z.to_nat T - 1) R [] = nth (Z.to_nat T - 1) R' [] -> forall j, (j + 1 < Z.to_nat T)%nat -> d j = d' j.
  Proof.
    intros fuel n N c d d' init T R R' Hn HN Hp Hli Hbi Hd Hd' HT Hf Hc HTn E E' Elast j. induction j as [j IH] using lt_wf_ind. intros Hj.
    destruct (Z.eq_dec (d j) (d' j)) as [|Hne]; [assumption|exfalso].
    apply (C107_front fuel n N c d d' init T R R' j (Z.to_nat T - 2 - j) Hn HN Hp Hli Hbi Hd Hd' HT Hf Hc E E'); [intros i Hi; apply IH; lia|exact Hne|lia|lia|].
    replace (j + 1 + (Z.to_nat T - 2 - j))%nat with (Z.to_nat T - 1)%nat by lia. rewrite Elast. reflexivity.
  Qed.
End Eca.
Print Assumptions C107_eca.
Print Assumptions C107_column.
Print Assumptions C107_light_cone.
Print Assumptions C107_undisturbed.
Print Assumptions C107_front.
Print Assumptions C107_draws_determined.

Lemma rule30_permutive : left_permutive (eca 30).
Proof. intros v w e e' a a' b c [-> | -> ] [-> | -> ] [-> | -> ] [-> | -> ] Hne; try congruence; vm_compute; discriminate. Qed.

(** the script with its own numbers *)
Definition script_bits : list Z := repeat 0 100 ++ [1] ++ repeat 0 99.
Theorem C107_script : forall {I BA BN} (W : env Z Z Z BA BN) (d d' : nat -> Z), (forall i, e_lab W i = Z.of_nat i) -> (forall k, bit (d k)) -> (forall k, bit (d' k)) ->
  exists R R', perturbation_eca_demo (I := I) W 100 200 30 100 d script_bits 100 = Ok R /\ perturbation_eca_demo (I := I) W 100 200 30 100 d' script_bits 100 = Ok R' /\
    length R = 100%nat /\ (nth 99 R [] = nth 99 R' [] <-> forall j, (j < 99)%nat -> d j = d' j).
Proof.
  intros I BA BN W d d' Hlab Hd Hd'.
  assert (Hb : Forall bit script_bits) by (repeat (constructor; [first [left; reflexivity|right; reflexivity]|]); constructor).
  assert (Hl : Z.of_nat (length script_bits) = 200) by reflexivity.
  pose proof (C107_eca (I := I) W Hlab 100 200 30 100 d script_bits 100 ltac:(lia) ltac:(lia) Hl Hb Hd ltac:(lia) ltac:(lia)) as E.
  pose proof (C107_eca (I := I) W Hlab 100 200 30 100 d' script_bits 100 ltac:(lia) ltac:(lia) Hl Hb Hd' ltac:(lia) ltac:(lia)) as E'.
  eexists. eexists. split; [exact E|]. split; [exact E'|]. split; [unfold rows; rewrite map_length, seq_length; reflexivity|]. split.
  - intros Elast j Hj. refine (C107_draws_determined (I := I) W Hlab 100 200 30 100 d d' script_bits 100 _ _ ltac:(lia) ltac:(lia) rule30_permutive Hl Hb Hd Hd' ltac:(lia) ltac:(lia) ltac:(lia) ltac:(lia) E E' Elast j ltac:(lia)).
  - intros Hj. assert (Er : forall q, nth 99 (rows 200 q (Z.to_nat 100)) [] = row 200 (q 99%nat)).
    { intros q. apply nth_error_nth. unfold rows. rewrite nth_error_map, (nth_error_nth' _ 0%nat), seq_nth by (rewrite ?seq_length; lia). reflexivity. }
    rewrite !Er. apply row_ext. intros v Hv. apply (cone 200 30 100 d d' (cell_of script_bits) 99); [lia|exact Hv|exact Hj|]. 
    pose proof (Z.mod_pos_bound (100 - v) 200 ltac:(lia)). pose proof (Z.mod_pos_bound (v - 100) 200 ltac:(lia)). unfold ring_distance. lia.
Qed.
Print Assumptions C107_script.

(** ** Examples *)
Definition alternating (k : nat) : Z := if Nat.even k then 1 else 0.
Definition ones_draw (k : nat) : Z := 1.
Definition start7 : list Z := [0; 0; 0; 1; 0; 0; 0].
(** the hypotheses of C107_composed for the arguments of the script *)
Example C107_composed_nonvacuous : let g := pert_args (I := Z) (nks_ca_rule 30) (perturb 3 alternating) in
  g_memo g = false /\ g_rule g = Some (stateless (nks_ca_rule 30)) /\ g_pert g = Some (perturb 3 alternating) /\ no_self_removal g.
Proof.
  split; [reflexivity|]. split; [reflexivity|]. split; [reflexivity|]. intros r u x u' o Er Eo. injection Er as <-. unfold stateless in Eo.
  destruct (nks_ca_rule 30 x); [|discriminate]. injection Eo as _ <-. intros [].
Qed.
(** the draws 1, 0, 1, 0 in column 3; the all-ones draws differ from the second draw on, first in column 3 and then one column further to the right in every row *)
Example C107_nonvacuous : Forall bit start7 /\ (forall k, bit (alternating k)) /\ (forall k, bit (ones_draw k)) /\ alternating 0 = ones_draw 0 /\ alternating 1 <> ones_draw 1 /\
  perturbation_eca_demo (I := Z) W0 9 7 30 3 alternating start7 5 = Ok [[0; 0; 0; 1; 0; 0; 0]; [0; 0; 1; 1; 1; 0; 0]; [0; 1; 1; 0; 0; 1; 0]; [1; 1; 0; 1; 1; 1; 1]; [0; 0; 0; 0; 0; 0; 0]] /\
  perturbation_eca_demo (I := Z) W0 9 7 30 3 ones_draw start7 5 = Ok [[0; 0; 0; 1; 0; 0; 0]; [0; 0; 1; 1; 1; 0; 0]; [0; 1; 1; 1; 0; 1; 0]; [1; 1; 0; 1; 0; 1; 1]; [0; 0; 0; 1; 0; 1; 0]].
Proof.
  split; [repeat (constructor; [unfold bit; auto|]); constructor|]. split; [intros k; unfold alternating, bit; destruct (Nat.even k); auto|]. split; [intros k; right; reflexivity|].
  split; [reflexivity|]. split; [vm_compute; discriminate|]. split; vm_compute; reflexivity.
Qed.
