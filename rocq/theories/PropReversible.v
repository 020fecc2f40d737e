(** * C106: the reversible automata of the demos *)
From Verif Require Import Py PyFacts ListFacts EvolveProofs3 Network Topology TopologySpec Evolve EvolveSpec EvolveProofs EvolveProofs2 EvolveProofs3 EvolveStatic Rules RulesSpec RulesProofs Utils Async TuringSpec TuringProofs2 PropTuring.
From Verif Require Import CaSpec CaRun CaNets EcaSpec EcaProofs PropRules PropCa PropEca ReversibleProofs RevSpec RevRun RevDemos PropEvolve.
Open Scope string_scope.
Open Scope list_scope.
Open Scope Z_scope.

(** the rule of number [N] at all times, and with the perturbation of the demo: 1 at every tenth timestep *)
Definition rule_table (N : Z) : Z -> Z -> Z -> list Z -> Z := always (eca N).
Definition tenth_table (N : Z) (t v a : Z) (l : list Z) : Z := if t mod 10 =? 0 then 1 else eca N v a l.

Lemma bit_lxor a b : bit a -> bit b -> bit (Z.lxor a b).
Proof. intros [-> | ->] [-> | ->]; cbn; unfold bit; auto. Qed.

Definition cell_of (l : list Z) (v : Z) : Z := nth (Z.to_nat v) l 0.

Section Runs.
  Context {U I BA BN : Type}.
  Notation env := (env Z Z Z BA BN).
  Notation args := (@args Z Z Z U I).
  Notation ctx := (node_ctx Z Z Z I).

  (** any rule computing 0 or 1 from 0s and 1s *)
  Lemma rev_bits_run (W : env) fuel (u0 : U) n r (h : ctx -> res Z) f c p T (g : args) net : 3 <= n -> 0 <= r -> 2 * r + 1 <= n ->
    (forall t v a l, bit (f t v a l)) ->
    (forall x : ctx, Forall bit (x_nacts x) -> length (x_nacts x) = Z.to_nat (2 * r + 1) -> h x = Ok (f (x_time x) (x_label x) (x_cur x) (x_nacts x))) ->
    static g (stateless (reversible_call h)) -> g_past g = [p] -> 1 <= T -> (Z.to_nat T <= fuel)%nat -> config W n bit c -> config W n bit p ->
    cellular_automaton n r true = Ok net ->
    lattice net n (ring_nb n r) /\ exists hs, runs W fuel u0 net c T g hs /\ nth_error hs 0 = Some (to_dict W c) /\ (forall k S, nth_error hs (Datatypes.S k) = Some S -> map fst S = nodes net) /\
      forall k S v, nth_error hs k = Some S -> 0 <= v < n -> dget S v = Some (so_state (ring_nb n r) f (read (to_dict W p)) (read (to_dict W c)) k v).
  Proof.
    intros Hn Hr H2r Hfb Hh Hst Hpast HT Hf Hc Hp Enet. destruct (ring_lattice n r Hn Hr H2r) as (net' & E & Hlat). assert (net' = net) by congruence. subst net'.
    pose proof (read_config W n c Hc) as Hrc. pose proof (read_config W n p Hp) as Hrp. split; [exact Hlat|].
    destruct (second_order_run W fuel u0 net n (ring_nb n r) c p T g h f bit (read (to_dict W c)) (read (to_dict W p)) Hlat ltac:(lia) Hst Hpast HT Hf (proj1 Hc)) as (hs & Hrun & Hz & Hk & Hs).
    - intros v Hv. apply Hrc, Hv.
    - intros v Hv. apply Hrp, Hv.
    - intros v Hv. apply Hrc, Hv.
    - intros v Hv. apply Hrp, Hv.
    - exact bit_lxor.
    - intros. apply Hfb.
    - intros x Hx _ Ha Hl. apply Hh; [exact Ha|]. rewrite Hl. apply length_ring_nb. exact Hr.
    - exists hs. split; [exact Hrun|]. split; [exact Hz|]. split; [exact Hk|]. intros k S v Ek Hv. apply (Hs k S Ek v Hv).
  Qed.

  Lemma nks_computes N r (x : ctx) : 0 <= r -> 0 <= N < 2 ^ (2 ^ (2 * r + 1)) -> Forall bit (x_nacts x) -> length (x_nacts x) = Z.to_nat (2 * r + 1) ->
    nks_ca_rule N x = Ok (rule_table N (x_time x) (x_label x) (x_cur x) (x_nacts x)).
  Proof. intros Hr HN Ha Hl. apply C30_testbit; [exact Ha|]. rewrite Hl, Z2Nat.id by lia. exact HN. Qed.
  Lemma perturbed_computes N r (x : ctx) : 0 <= r -> 0 <= N < 2 ^ (2 ^ (2 * r + 1)) -> Forall bit (x_nacts x) -> length (x_nacts x) = Z.to_nat (2 * r + 1) ->
    perturbed_rule N x = Ok (tenth_table N (x_time x) (x_label x) (x_cur x) (x_nacts x)).
  Proof. intros Hr HN Ha Hl. unfold perturbed_rule, tenth_table. destruct (_ =? 0); [reflexivity|]. apply (nks_computes N r); assumption. Qed.
  Lemma bit_table N t v a l : bit (rule_table N t v a l).
  Proof. apply bit_eca. Qed.
  Lemma bit_tenth N t v a l : bit (tenth_table N t v a l).
  Proof. unfold tenth_table. destruct (_ =? 0); [right; reflexivity|apply bit_eca]. Qed.

  (** the run is the second-order automaton: every cell becomes what the rule gives, xored with its state one step before *)
  Theorem C106_second_order : forall (W : env) fuel (u0 : U) n r N c p T (g : args), 3 <= n -> 0 <= r -> 2 * r + 1 <= n -> 0 <= N < 2 ^ (2 ^ (2 * r + 1)) ->
    static g (stateless (reversible_call (nks_ca_rule N))) -> g_past g = [p] -> 1 <= T -> (Z.to_nat T <= fuel)%nat -> config W n bit c -> config W n bit p ->
    exists net hs, cellular_automaton n r true = Ok net /\ runs W fuel u0 net c T g hs /\
      forall k S v, nth_error hs k = Some S -> 0 <= v < n -> dget S v = Some (so_state (ring_nb n r) (rule_table N) (read (to_dict W p)) (read (to_dict W c)) k v).
  Proof.
    intros W fuel u0 n r N c p T g Hn Hr H2r HN Hst Hp HT Hf Hc Hcp. destruct (ring_lattice n r Hn Hr H2r) as (net & E & _). exists net.
    destruct (rev_bits_run W fuel u0 n r (nks_ca_rule N) (rule_table N) c p T g net Hn Hr H2r (bit_table N) (fun x => nks_computes N r x Hr HN) Hst Hp HT Hf Hc Hcp E) as (_ & hs & Hrun & _ & _ & Hk).
    exists hs. auto.
  Qed.

  (** ... also when the rule is perturbed every tenth timestep *)
  Theorem C106_perturbed : forall (W : env) fuel (u0 : U) n r N c p T (g : args), 3 <= n -> 0 <= r -> 2 * r + 1 <= n -> 0 <= N < 2 ^ (2 ^ (2 * r + 1)) ->
    static g (stateless (reversible_call (perturbed_rule N))) -> g_past g = [p] -> 1 <= T -> (Z.to_nat T <= fuel)%nat -> config W n bit c -> config W n bit p ->
    exists net hs, cellular_automaton n r true = Ok net /\ runs W fuel u0 net c T g hs /\
      (forall k S v, nth_error hs k = Some S -> 0 <= v < n -> dget S v = Some (so_state (ring_nb n r) (tenth_table N) (read (to_dict W p)) (read (to_dict W c)) k v)) /\
      (** at timestep 10, 20, ... every cell becomes the opposite of what it was two states before *)
      (forall j A C v, nth_error hs (10 * j + 8) = Some A -> nth_error hs (10 * j + 10) = Some C -> 0 <= v < n -> read C v = 1 - read A v).
  Proof.
    intros W fuel u0 n r N c p T g Hn Hr H2r HN Hst Hp HT Hf Hc Hcp. destruct (ring_lattice n r Hn Hr H2r) as (net & E & _). exists net.
    destruct (rev_bits_run W fuel u0 n r (perturbed_rule N) (tenth_table N) c p T g net Hn Hr H2r (bit_tenth N) (fun x => perturbed_computes N r x Hr HN) Hst Hp HT Hf Hc Hcp E) as (Hlat & hs & Hrun & _ & _ & Hk).
    exists hs. split; [exact E|]. split; [exact Hrun|]. split; [exact Hk|]. intros j A C v EA EC Hv. unfold read. rewrite (Hk _ _ _ EA Hv), (Hk _ _ _ EC Hv).
    replace (10 * j + 10)%nat with (S (S (10 * j + 8))) by lia. rewrite so_next. cbn [so_from]. unfold tenth_table at 1. replace (Z.of_nat (S (S (10 * j + 8))) mod 10) with 0 by (symmetry; apply Z.mod_divide; [lia|]; exists (Z.of_nat j + 1); lia).
    cbn [Z.eqb]. destruct Hlat as (_ & _ & _ & _ & _ & Hub).
    destruct (so_inside (ring_nb n r) (fun v => 0 <= v < n) bit (tenth_table N) (read (to_dict W p)) (read (to_dict W c)) Hub bit_lxor
      (fun v Hv => proj2 (read_config W n p Hcp v Hv)) (fun v Hv => proj2 (read_config W n c Hc v Hv)) ltac:(intros; apply bit_tenth) (10 * j + 8)%nat v Hv) as [_ [-> | ->]]; reflexivity.
  Qed.

  (** two runs of one rule that agree at two consecutive timesteps agree at every timestep, and had the same past *)
  Theorem C106_determined_both_ways : forall (W : env) fuel fuel' (u0 u0' : U) n r N c p T (g : args) c' p' T' (g' : args) net hs hs', 3 <= n -> 0 <= r -> 2 * r + 1 <= n -> 0 <= N < 2 ^ (2 ^ (2 * r + 1)) ->
    static g (stateless (reversible_call (nks_ca_rule N))) -> g_past g = [p] -> 1 <= T -> (Z.to_nat T <= fuel)%nat -> config W n bit c -> config W n bit p ->
    static g' (stateless (reversible_call (nks_ca_rule N))) -> g_past g' = [p'] -> 1 <= T' -> (Z.to_nat T' <= fuel')%nat -> config W n bit c' -> config W n bit p' ->
    cellular_automaton n r true = Ok net -> runs W fuel u0 net c T g hs -> runs W fuel' u0' net c' T' g' hs' ->
    forall k, (forall i A A', i = k \/ i = S k -> nth_error (to_dict W p :: hs) i = Some A -> nth_error (to_dict W p' :: hs') i = Some A' -> forall v, 0 <= v < n -> dget A v = dget A' v) ->
    (S k <= length hs)%nat -> (S k <= length hs')%nat ->
    forall i A A' v, nth_error (to_dict W p :: hs) i = Some A -> nth_error (to_dict W p' :: hs') i = Some A' -> 0 <= v < n -> dget A v = dget A' v.
  Proof.
    intros W fuel fuel' u0 u0' n r N c p T g c' p' T' g' net hs hs' Hn Hr H2r HN Hst Hp HT Hf Hc Hcp Hst' Hp' HT' Hf' Hc' Hcp' E Hrun Hrun' k Hk Hl Hl' i A A' v EA EA' Hv.
    assert (Huniq : forall fuel (u0 : U) c T (g : args) hs hs0, runs W fuel u0 net c T g hs -> runs W fuel u0 net c T g hs0 -> (forall k S v, nth_error hs0 k = Some S -> 0 <= v < n -> exists a, dget S v = Some a) -> hs = hs0).
    { clear - Hn. intros fuel u0 c T g hs hs0 (uf & tr & E & _ & Hs) (uf' & tr' & E' & _ & Hs') Hne. assert (tr' = tr) by congruence. subst tr'. clear E E'. revert hs0 Hs' Hne. induction Hs as [|st S tr hs Es Hs IH]; intros hs0 Hs' Hne; inversion Hs' as [|? S0 ? hs1 Es0 Hs1]; subst; [reflexivity|].
      assert (S0 = S).
      { rewrite Es in Es0. destruct (Hne 0%nat S0 0 eq_refl ltac:(lia)) as (a & Ea). destruct S0; [discriminate|]. destruct S; [discriminate|]. congruence. }
      subst S0. f_equal. apply IH; [exact Hs1|]. intros k S0 v Ek. apply (Hne (Datatypes.S k) S0 v Ek). }
    destruct (rev_bits_run W fuel u0 n r (nks_ca_rule N) (rule_table N) c p T g net Hn Hr H2r (bit_table N) (fun x => nks_computes N r x Hr HN) Hst Hp HT Hf Hc Hcp E) as (Hlat & h1 & R1 & _ & _ & K1).
    destruct (rev_bits_run W fuel' u0' n r (nks_ca_rule N) (rule_table N) c' p' T' g' net Hn Hr H2r (bit_table N) (fun x => nks_computes N r x Hr HN) Hst' Hp' HT' Hf' Hc' Hcp' E) as (_ & h2 & R2 & _ & _ & K2).
    assert (hs = h1) by (apply (Huniq _ _ _ _ _ _ _ Hrun R1); intros ? ? w Ek Hw; rewrite (K1 _ _ _ Ek Hw); eauto). subst h1.
    assert (hs' = h2) by (apply (Huniq _ _ _ _ _ _ _ Hrun' R2); intros ? ? w Ek Hw; rewrite (K2 _ _ _ Ek Hw); eauto). subst h2. destruct Hlat as (_ & _ & _ & _ & _ & Hub).
    set (b := so_from (ring_nb n r) (rule_table N) (read (to_dict W p)) (read (to_dict W c))) in *. set (b' := so_from (ring_nb n r) (rule_table N) (read (to_dict W p')) (read (to_dict W c'))) in *.
    assert (Hb : forall j B w, nth_error (to_dict W p :: hs) j = Some B -> 0 <= w < n -> dget B w = Some (b j w)).
    { intros [|j] B w EB Hw; [injection EB as <-; apply read_config with (n := n); assumption|]. apply (K1 j B w EB Hw). }
    assert (Hb' : forall j B w, nth_error (to_dict W p' :: hs') j = Some B -> 0 <= w < n -> dget B w = Some (b' j w)).
    { intros [|j] B w EB Hw; [injection EB as <-; apply read_config with (n := n); assumption|]. apply (K2 j B w EB Hw). }
    pose proof (so_law (ring_nb n r) (fun v => 0 <= v < n) (rule_table N) (read (to_dict W p)) (read (to_dict W c))) as L1. pose proof (so_law (ring_nb n r) (fun v => 0 <= v < n) (rule_table N) (read (to_dict W p')) (read (to_dict W c'))) as L2. fold b in L1. fold b' in L2.
    assert (Hag : forall j, j = k \/ j = S k -> forall w, 0 <= w < n -> b j w = b' j w).
    { intros j Hj w Hw. destruct (nth_error (to_dict W p :: hs) j) as [B|] eqn:EB; [|apply nth_error_None in EB; cbn [length] in EB; lia]. destruct (nth_error (to_dict W p' :: hs') j) as [B'|] eqn:EB'; [|apply nth_error_None in EB'; cbn [length] in EB'; lia].
      pose proof (Hk j B B' Hj EB EB' w Hw) as Eq. rewrite (Hb _ _ _ EB Hw), (Hb' _ _ _ EB' Hw) in Eq. congruence. }
    pose proof (law_back (ring_nb n r) (fun v => 0 <= v < n) Hub (rule_table N) b b' L1 L2 k (Hag k (or_introl eq_refl)) (Hag (S k) (or_intror eq_refl))) as Hback.
    assert (H01 : forall w, 0 <= w < n -> b 0%nat w = b' 0%nat w) by (apply Hback; lia).
    assert (H11 : forall w, 0 <= w < n -> b 1%nat w = b' 1%nat w) by (destruct k as [|k]; [apply (Hag 1%nat); auto|apply Hback; lia]).
    rewrite (Hb _ _ _ EA Hv), (Hb' _ _ _ EA' Hv). f_equal. apply (law_unique (ring_nb n r) (fun v => 0 <= v < n) Hub (rule_table N) b b' L1 L2 H01 H11 i). exact Hv.
  Qed.
End Runs.

(** ** every reversible automaton comes back to where it started *)
Fixpoint bit_lists (k : nat) : list (list Z) := match k with O => [[]] | S k => map (cons 0) (bit_lists k) ++ map (cons 1) (bit_lists k) end.
Lemma bit_lists_length k : length (bit_lists k) = (2 ^ k)%nat.
Proof. induction k as [|k IH]; [reflexivity|]. cbn [bit_lists]. rewrite app_length, !map_length, IH. cbn [Nat.pow]. lia. Qed.
Lemma bit_lists_in l : Forall bit l -> In l (bit_lists (length l)).
Proof.
  induction 1 as [|a l Ha _ IH]; [left; reflexivity|]. cbn [length bit_lists]. apply in_or_app. destruct Ha as [-> | ->]; [left|right]; apply in_map; exact IH.
Qed.
Lemma pigeon {X} (dec : forall a b : X, {a = b} + {a <> b}) (q : nat -> X) F : (forall i, In (q i) F) -> exists i j, (i < j <= length F)%nat /\ q i = q j.
Proof.
  intros Hq. assert (Hor : forall m, (exists i j, (i < j < m)%nat /\ q i = q j) \/ NoDup (map q (seq 0 m))).
  { induction m as [|m IH]; [right; constructor|]. destruct IH as [(i & j & Hij & E)|Hnd]; [left; exists i, j; split; [lia|exact E]|].
    destruct (in_dec dec (q m) (map q (seq 0 m))) as [Hin|Hn].
    - left. apply in_map_iff in Hin. destruct Hin as (i & E & Hi). apply in_seq in Hi. exists i, m. split; [lia|exact E].
    - right. rewrite seq_S, map_app. cbn [map Nat.add]. apply (Permutation_NoDup (Permutation_cons_append _ _)). constructor; assumption. }
  destruct (Hor (S (length F))) as [(i & j & Hij & E)|Hnd]; [exists i, j; split; [lia|exact E]|].
  exfalso. assert (Hle : (length (map q (seq 0 (S (length F)))) <= length F)%nat) by (apply NoDup_incl_length; [exact Hnd|]; intros x Hx; apply in_map_iff in Hx; destruct Hx as (i & <- & _); apply Hq).
  rewrite map_length, seq_length in Hle. lia.
Qed.

Lemma row_ext n s s' : (forall v, 0 <= v < n -> s v = s' v) -> row n s = row n s'.
Proof. intros E. apply map_ext_in. intros v Hv. apply E, in_zrange, Hv. Qed.
Lemma row_inj n s s' : row n s = row n s' -> forall v, 0 <= v < n -> s v = s' v.
Proof.
  unfold row. intros E v Hv. apply in_zrange in Hv. revert E Hv. induction (zrange 0 n) as [|w l IH]; intros E Hv; [destruct Hv|]. cbn [map] in E. injection E as E1 E2. destruct Hv as [<-|Hv]; auto.
Qed.
Lemma row_length n s : length (row n s) = Z.to_nat n.
Proof. unfold row. rewrite map_length, length_zrange. f_equal. lia. Qed.

Theorem C106_recurrence : forall {U I BA BN} (W : env Z Z Z BA BN) n r N c p, 3 <= n -> 0 <= r -> 2 * r + 1 <= n -> 0 <= N < 2 ^ (2 ^ (2 * r + 1)) -> config W n bit c -> config W n bit p ->
  exists P, (1 <= P <= 4 ^ Z.to_nat n)%nat /\
    forall fuel (u0 : U) T (g : @args Z Z Z U I), static g (stateless (reversible_call (nks_ca_rule N))) -> g_past g = [p] -> 1 <= T -> (Z.to_nat T <= fuel)%nat ->
    exists net hs, cellular_automaton n r true = Ok net /\ runs W fuel u0 net c T g hs /\
      forall k A B v, nth_error (to_dict W p :: hs) k = Some A -> nth_error (to_dict W p :: hs) (k + P) = Some B -> 0 <= v < n -> dget A v = dget B v.
Proof.
  intros U I BA BN W n r N c p Hn Hr H2r HN Hc Hp. destruct (ring_lattice n r Hn Hr H2r) as (net & E & Hlat).
  set (b := so_from (ring_nb n r) (rule_table N) (read (to_dict W p)) (read (to_dict W c))). pose proof Hlat as (_ & _ & _ & _ & _ & Hub).
  pose proof (so_law (ring_nb n r) (fun v => 0 <= v < n) (rule_table N) (read (to_dict W p)) (read (to_dict W c))) as Hlaw. fold b in Hlaw.
  pose proof (so_inside (ring_nb n r) (fun v => 0 <= v < n) bit (rule_table N) (read (to_dict W p)) (read (to_dict W c)) Hub bit_lxor
      (fun v Hv => proj2 (read_config W n p Hp v Hv)) (fun v Hv => proj2 (read_config W n c Hc v Hv)) ltac:(intros; apply bit_table)) as Hbit.
  destruct (pigeon (list_eq_dec Z.eq_dec) (fun i => row n (b i) ++ row n (b (S i))) (bit_lists (Z.to_nat n + Z.to_nat n))) as (i & j & Hij & Eq).
  { intros i. replace (Z.to_nat n + Z.to_nat n)%nat with (length (row n (b i) ++ row n (b (S i)))) by (rewrite app_length, !row_length; reflexivity).
    apply bit_lists_in. apply Forall_app. split; apply Forall_forall; intros a Ha; apply in_map_iff in Ha; destruct Ha as (v & <- & Hv); apply in_zrange in Hv; apply (Hbit i v Hv). }
  assert (E1 : row n (b i) = row n (b j) /\ row n (b (S i)) = row n (b (S j))).
  { assert (Hl : length (row n (b i)) = length (row n (b j))) by (rewrite !row_length; reflexivity). revert Eq Hl. generalize (row n (b i)) (row n (b j)). intros l. induction l as [|x l IH]; intros [|y l'] Eq Hl; try discriminate; [auto|].
    cbn [app] in Eq. injection Eq as -> Eq. destruct (IH l' Eq ltac:(cbn [length] in Hl; lia)) as [-> ->]. auto. }
  destruct E1 as [E1 E2]. exists (j - i)%nat. split.
  { rewrite bit_lists_length in Hij. assert (E4 : (4 ^ Z.to_nat n = 2 ^ (Z.to_nat n + Z.to_nat n))%nat) by (rewrite Nat.pow_add_r, <- Nat.pow_mul_l; reflexivity). rewrite E4. lia. }
  pose proof (law_periodic (ring_nb n r) (fun v => 0 <= v < n) Hub (eca N) b i j Hlaw (proj1 Hij) (row_inj _ _ _ E1) (row_inj _ _ _ E2)) as Hper.
  intros fuel u0 T g Hst Hpast HT Hf. exists net.
  destruct (rev_bits_run W fuel u0 n r (nks_ca_rule N) (rule_table N) c p T g net Hn Hr H2r (bit_table N) (fun x => nks_computes N r x Hr HN) Hst Hpast HT Hf Hc Hp E) as (_ & hs & Hrun & _ & _ & Hk).
  exists hs. split; [exact E|]. split; [exact Hrun|].
  assert (Hb : forall j B w, nth_error (to_dict W p :: hs) j = Some B -> 0 <= w < n -> dget B w = Some (b j w)).
  { intros [|j'] B w EB Hw; [injection EB as <-; apply read_config with (n := n); assumption|]. apply (Hk j' B w EB Hw). }
  intros k A B v EA EB Hv. rewrite (Hb _ _ _ EA Hv), (Hb _ _ _ EB Hv). f_equal. symmetry. apply Hper, Hv.
Qed.

(** ** the scripts *)
Lemma read_rows {BA BN} (W : env Z Z Z BA BN) traj hs n st : 0 < n -> Forall2 (fun s d => activities W s = Ok (shown_acts d)) traj hs ->
  (forall k S, nth_error hs k = Some S -> NoDup (dkeys S) /\ forall v, In v (dkeys S) <-> 0 <= v < n) ->
  (forall k S v, nth_error hs k = Some S -> 0 <= v < n -> dget S v = Some (st k v)) ->
  get_activities_over_time_as_list W Z.leb traj = Ok (rows n st (length hs)).
Proof.
  intros Hn Hshow Hkeys Hk.
  assert (Hsh : Forall2 (fun d (c : conf unit Z) => shows d (cf_tape c)) hs (map (mkConf tt 0) (rows n st (length hs)))).
  { apply Forall2_nth_intro; [unfold rows; rewrite !map_length, seq_length; reflexivity|]. intros k d c Ed Ec. assert (Hlt : (k < length hs)%nat) by (apply nth_error_Some; congruence).
    unfold rows in Ec. rewrite !nth_error_map, (nth_error_nth' _ 0%nat), seq_nth in Ec by (rewrite ?seq_length; exact Hlt). injection Ec as <-. cbn [cf_tape Nat.add]. unfold shows.
    rewrite row_length. rewrite Z2Nat.id by lia. destruct (Hkeys k d Ed) as [D1 D2]. split; [exact D1|]. split; [exact D2|]. intros v Hv. rewrite (Hk k d v Ed Hv). unfold row. rewrite nth_error_map, nth_error_zrange by lia. cbn [option_map]. do 2 f_equal. lia. }
  rewrite (shows_rows W traj hs _ Hshow Hsh).
  - rewrite map_map. cbn [cf_tape]. rewrite map_id. reflexivity.
  - apply Forall_forall. intros c Hc. apply in_map_iff in Hc. destruct Hc as (r & <- & Hr). cbn [cf_tape]. unfold rows in Hr. apply in_map_iff in Hr. destruct Hr as (k & <- & _).
    intros En. pose proof (row_length n (st k)) as Hx. rewrite En in Hx. cbn in Hx. lia.
Qed.

Lemma cell_of_row n s v : 0 <= v < n -> cell_of (row n s) v = s v.
Proof.
  intros Hv. unfold cell_of, row. apply nth_error_nth. rewrite nth_error_map, nth_error_zrange by lia. cbn [option_map]. do 2 f_equal. lia.
Qed.

Section Scripts.
  Context {U I BA BN : Type} (W : env Z Z Z BA BN) (Hlab : forall i, e_lab W i = Z.of_nat i).
  Notation ctx := (node_ctx Z Z Z I).

  Lemma rev_rows fuel (u0 : U) n (h : ctx -> res Z) f init past T net : 3 <= n -> (forall t v a l, bit (f t v a l)) ->
    (forall x : ctx, Forall bit (x_nacts x) -> length (x_nacts x) = 3%nat -> h x = Ok (f (x_time x) (x_label x) (x_cur x) (x_nacts x))) ->
    Z.of_nat (length init) = n -> Z.of_nat (length past) = n -> Forall bit init -> Forall bit past -> 1 <= T -> (Z.to_nat T <= fuel)%nat -> cellular_automaton n 1 true = Ok net ->
    rev_activities W fuel u0 net h init past T = Ok (rows n (so_state (ring_nb n 1) f (cell_of past) (cell_of init)) (Z.to_nat T)).
  Proof.
    intros Hn Hfb Hh Hli Hlp Hbi Hbp HT Hf Enet. destruct (ring_lattice n 1 Hn ltac:(lia) ltac:(lia)) as (net' & E & Hlat). assert (net' = net) by congruence. subst net'.
    pose proof (shows_list W init Hlab) as (S1 & S2 & S3). pose proof (shows_list W past Hlab) as (_ & _ & P3). rewrite Hli in S2, S3. rewrite Hlp in P3.
    assert (Hat : forall l v, Z.of_nat (length l) = n -> 0 <= v < n -> nth_error l (Z.to_nat v) = Some (cell_of l v)) by (intros l v Hl Hv; unfold cell_of; apply nth_error_nth'; lia).
    assert (Hbat : forall l v, Z.of_nat (length l) = n -> Forall bit l -> 0 <= v < n -> bit (cell_of l v)) by (intros l v Hl Hb Hv; rewrite Forall_forall in Hb; apply Hb; apply (nth_error_In l (Z.to_nat v)); apply Hat; assumption).
    destruct (second_order_run (I := I) W fuel u0 net n (ring_nb n 1) (CList init) (CList past) T (rev_args h [CList past]) h f bit (cell_of init) (cell_of past) Hlat ltac:(lia)) as (hs & (uf & traj & Ev & Hl & Hshow) & Hz & Hkeys & Hk).
    - repeat split; reflexivity.
    - reflexivity.
    - exact HT.
    - exact Hf.
    - rewrite <- Hli. cbn [to_dict]. unfold enumerate. rewrite map_length, combine_length, seq_length. lia.
    - intros v Hv. rewrite S3 by exact Hv. apply Hat; assumption.
    - intros v Hv. rewrite P3 by exact Hv. apply Hat; assumption.
    - intros v Hv. apply Hbat; assumption.
    - intros v Hv. apply Hbat; assumption.
    - exact bit_lxor.
    - intros. apply Hfb.
    - intros x Hx _ Ha Hlen. apply Hh; [exact Ha|]. rewrite Hlen, length_ring_nb by lia. reflexivity.
    - unfold rev_activities. rewrite Ev. cbn [rbind]. rewrite (read_rows W traj hs n (so_state (ring_nb n 1) f (cell_of past) (cell_of init)) ltac:(lia) Hshow).
      + do 2 f_equal. lia.
      + intros [|k] S Ek; [rewrite Hz in Ek; injection Ek as <-; split; assumption|]. unfold dkeys. rewrite (Hkeys k S Ek). destruct Hlat as (Hnd & Hnodes & _). split; assumption.
      + intros k S v Ek Hv. apply (Hk k S Ek v Hv).
  Qed.

  Lemma nks_computes3 N (x : ctx) : 0 <= N < 256 -> Forall bit (x_nacts x) -> length (x_nacts x) = 3%nat -> nks_ca_rule N x = Ok (rule_table N (x_time x) (x_label x) (x_cur x) (x_nacts x)).
  Proof. intros HN. apply (nks_computes N 1); [lia|exact HN]. Qed.

  (** reversible_ca_demo.py and the two rule122R scripts: the rows plotted *)
  Theorem C106_demo : forall fuel (u0 : U) n N init past T, 3 <= n -> 0 <= N < 256 -> Z.of_nat (length init) = n -> Z.of_nat (length past) = n -> Forall bit init -> Forall bit past ->
    1 <= T -> (Z.to_nat T <= fuel)%nat ->
    reversible_demo W fuel u0 n (nks_ca_rule (I := I) N) init past T = Ok (rows n (so_state (ring_nb n 1) (rule_table N) (cell_of past) (cell_of init)) (Z.to_nat T)).
  Proof.
    intros fuel u0 n N init past T Hn HN Hli Hlp Hbi Hbp HT Hf. destruct (ring_lattice n 1 Hn ltac:(lia) ltac:(lia)) as (net & E & _). unfold reversible_demo. rewrite E. cbn [rbind].
    apply rev_rows; try assumption; [apply bit_table|]. intros x. apply nks_computes3, HN.
  Qed.

  (** rule214R_demo.py: the second run goes back through the states of the first, and then through them again in the forward direction *)
  Theorem C106_there_and_back : forall fuel (u0 : U) n N init (T m : nat), 3 <= n -> 0 <= N < 256 -> Z.of_nat (length init) = n -> Forall bit init ->
    (2 <= T)%nat -> (1 <= m)%nat -> (T <= fuel)%nat -> (m <= fuel)%nat ->
    let st := so_state (ring_nb n 1) (rule_table N) (cell_of init) (cell_of init) in
    exists R, there_and_back_demo W fuel u0 n (nks_ca_rule (I := I) N) init (Z.of_nat T) (Z.of_nat m) = Ok R /\
      R = map (fun j => row n (st (if (j <=? T - 2)%nat then T - 2 - j else j - (T - 1))%nat)) (seq 0 m) /\
      (m = 2 * (T - 1) -> rev R = R)%nat.
  Proof.
    intros fuel u0 n N init T m Hn HN Hli Hbi HT Hm Hf Hf' st. destruct (ring_lattice n 1 Hn ltac:(lia) ltac:(lia)) as (net & E & Hlat). unfold there_and_back_demo. rewrite E. cbn [rbind].
    rewrite (rev_rows fuel u0 n (nks_ca_rule N) (rule_table N) init init (Z.of_nat T) net Hn (bit_table N) (fun x => nks_computes3 N x HN) Hli Hli Hbi Hbi ltac:(lia) ltac:(lia) E). cbn [rbind]. fold st. rewrite Nat2Z.id.
    assert (Hat : forall k, (k < T)%nat -> nth_error (rows n st T) k = Some (row n (st k))) by (intros k Hk; unfold rows; rewrite nth_error_map, (nth_error_nth' _ 0%nat), seq_nth by (rewrite ?seq_length; exact Hk); reflexivity).
    assert (Hlen : length (rows n st T) = T) by (unfold rows; rewrite map_length, seq_length; reflexivity).
    assert (Hneg : forall i, (1 <= i <= T)%nat -> py_nth (rows n st T) (- Z.of_nat i) = Some (row n (st (T - i)%nat))).
    { intros i Hi. unfold py_nth, py_index. rewrite Hlen. destruct (Z.leb_spec 0 (- Z.of_nat i)); [lia|]. cbn [andb].
      replace (- Z.of_nat T <=? - Z.of_nat i) with true by (symmetry; apply Z.leb_le; lia).
      rewrite <- Hat by lia. replace (- Z.of_nat i <? 0) with true by (symmetry; apply Z.ltb_lt; lia). cbn [andb]. f_equal. lia. }
    pose proof (Hneg 2%nat ltac:(lia)) as N2. pose proof (Hneg 1%nat ltac:(lia)) as N1. change (- Z.of_nat 2) with (-2) in N2. change (- Z.of_nat 1) with (-1) in N1. rewrite N2, N1. cbn [of_opt rbind].
    destruct Hlat as (_ & _ & _ & _ & _ & Hub).
    assert (Hbst : forall k v, 0 <= v < n -> bit (st k v)).
    { assert (Hb0 : forall v, 0 <= v < n -> bit (cell_of init v)) by (intros v Hv; rewrite Forall_forall in Hbi; apply Hbi; unfold cell_of; apply nth_In; lia).
      intros k v Hv. apply (so_inside (ring_nb n 1) (fun v => 0 <= v < n) bit (rule_table N) (cell_of init) (cell_of init) Hub bit_lxor Hb0 Hb0 ltac:(intros; apply bit_table) k v Hv). }
    assert (Hbr : forall k, Forall bit (row n (st k))) by (intros k; apply Forall_forall; intros a Ha; apply in_map_iff in Ha; destruct Ha as (v & <- & Hv); apply in_zrange in Hv; apply Hbst, Hv).
    rewrite (rev_rows fuel u0 n (nks_ca_rule N) (rule_table N) _ _ (Z.of_nat m) net Hn (bit_table N) (fun x => nks_computes3 N x HN)); try (rewrite row_length; lia); try apply Hbr; try lia; [|exact E].
    eexists. split; [reflexivity|]. rewrite Nat2Z.id.
    set (b := so_from (ring_nb n 1) (rule_table N) (cell_of init) (cell_of init)). set (b' := so_from (ring_nb n 1) (rule_table N) (cell_of (row n (st (T - 1)%nat))) (cell_of (row n (st (T - 2)%nat)))).
    pose proof (so_law (ring_nb n 1) (fun v => 0 <= v < n) (rule_table N) (cell_of init) (cell_of init)) as L1. fold b in L1.
    pose proof (so_law (ring_nb n 1) (fun v => 0 <= v < n) (rule_table N) (cell_of (row n (st (T - 1)%nat))) (cell_of (row n (st (T - 2)%nat)))) as L2. fold b' in L2.
    assert (E0 : forall v, 0 <= v < n -> b' 0%nat v = b (S (T - 1)) v) by (intros v Hv; apply cell_of_row, Hv).
    assert (E1 : forall v, 0 <= v < n -> b' 1%nat v = b (T - 1)%nat v) by (intros v Hv; unfold b'; cbn [so_from]; unfold so_state; cbn [orbit snd]; rewrite cell_of_row by exact Hv; unfold b; replace (T - 1)%nat with (S (T - 2)) by lia; reflexivity).
    assert (Es : forall v, 0 <= v < n -> b 0%nat v = b 1%nat v) by (intros v Hv; reflexivity).
    pose proof (law_reverse (ring_nb n 1) (fun v => 0 <= v < n) Hub (eca N) b b' (T - 1) L1 L2 E0 E1) as Hrev. pose proof (law_mirror (ring_nb n 1) (fun v => 0 <= v < n) Hub (eca N) b b' (T - 1) L1 L2 E0 E1 Es) as Hmir.
    assert (ER : rows n (so_state (ring_nb n 1) (rule_table N) (cell_of (row n (st (T - 1)%nat))) (cell_of (row n (st (T - 2)%nat)))) m = map (fun j => row n (st (if (j <=? T - 2)%nat then T - 2 - j else j - (T - 1))%nat)) (seq 0 m)).
    { unfold rows. apply map_ext_in. intros j Hj. apply in_seq in Hj. apply row_ext. intros v Hv. change (b' (S j) v = st (if (j <=? T - 2)%nat then T - 2 - j else j - (T - 1))%nat v). destruct (Nat.leb_spec j (T - 2)).
      - rewrite (Hrev (S j) ltac:(lia) v Hv). replace (S (T - 1) - S j)%nat with (S (T - 2 - j)) by lia. reflexivity.
      - replace (S j) with (T - 1 + S (j - (T - 1)))%nat by lia. rewrite (Hmir _ v Hv). reflexivity. }
    split; [exact ER|]. intros Em. rewrite ER. clear - Em HT. apply nth_error_ext. intros i. 
    assert (Hl : forall f : nat -> list Z, length (map f (seq 0 m)) = m) by (intros; rewrite map_length, seq_length; reflexivity).
    destruct (Nat.lt_ge_cases i m) as [Hlt|Hge].
    - rewrite (nth_error_nth' _ []) by (rewrite rev_length, Hl; exact Hlt). rewrite rev_nth by (rewrite Hl; exact Hlt). rewrite Hl.
      rewrite <- (nth_error_nth' _ []) by (rewrite Hl; lia). rewrite !nth_error_map. rewrite !(nth_error_nth' (seq 0 m) 0%nat) by (rewrite seq_length; lia). rewrite !seq_nth by lia. cbn [option_map Nat.add].
      do 3 f_equal. destruct (Nat.leb_spec (m - S i) (T - 2)), (Nat.leb_spec i (T - 2)); lia.
    - rewrite (proj2 (nth_error_None _ _)) by (rewrite rev_length, Hl; exact Hge). rewrite (proj2 (nth_error_None _ _)) by (rewrite Hl; exact Hge). reflexivity.
  Qed.

  (** rule214R_demo.py with its own numbers: the picture is the same read from top to bottom and from bottom to top *)
  Corollary C106_rule214R : forall fuel (u0 : U), (62 <= fuel)%nat -> exists R, there_and_back_demo W fuel u0 63 (nks_ca_rule (I := I) 214) (repeat 0 31 ++ [1] ++ repeat 0 31) 32 62 = Ok R /\
    rev R = R /\ nth_error R 30 = Some (repeat 0 31 ++ [1] ++ repeat 0 31) /\ nth_error R 31 = Some (repeat 0 31 ++ [1] ++ repeat 0 31).
  Proof.
    intros fuel u0 Hf. destruct (C106_there_and_back fuel u0 63 214 (repeat 0 31 ++ [1] ++ repeat 0 31) 32 62) as (R & E & ER & Hp); try lia; [reflexivity|repeat (constructor; [unfold bit; auto|]); constructor|].
    exists R. split; [exact E|]. split; [apply Hp; reflexivity|]. rewrite ER.
    split; rewrite nth_error_map, (nth_error_nth' _ 0%nat), seq_nth by (rewrite ?seq_length; lia); reflexivity.
  Qed.
End Scripts.

(** *** the two rule122R scripts *)
(** rule122R_entropy_demo.py:10 *)
Definition block : list Z := repeat 0 40 ++ repeat 1 20 ++ repeat 0 40.
(** rule122R_reverse_demo.py:12-19 *)
Definition previous_state : list Z := [1; 1; 0; 0; 1; 1; 0; 0; 0; 0; 1; 1; 0; 1; 1; 1; 0; 1; 0; 1; 1; 1; 0; 0; 0; 1; 1; 1; 0; 1; 1; 1; 0; 0; 0; 1; 0;
  0; 1; 1; 1; 1; 0; 1; 1; 0; 1; 0; 1; 1; 1; 1; 0; 1; 0; 1; 1; 0; 1; 1; 1; 1; 0; 0; 1; 0; 0; 0; 1; 1; 1; 0; 1; 1; 1; 0; 0; 0; 1; 1; 1; 0; 1; 0; 1; 1;
  1; 0; 1; 1; 0; 0; 0; 0; 1; 1; 0; 0; 1; 1].
Definition chosen_state : list Z := [1; 1; 1; 0; 1; 1; 1; 1; 0; 0; 0; 1; 1; 1; 1; 1; 1; 0; 1; 1; 0; 0; 1; 0; 1; 0; 1; 0; 0; 0; 0; 0; 0; 0; 0; 0; 1; 1;
  1; 1; 1; 1; 1; 1; 1; 1; 0; 1; 0; 1; 1; 0; 1; 0; 1; 1; 1; 1; 1; 1; 1; 1; 1; 1; 0; 0; 0; 0; 0; 0; 0; 0; 0; 1; 0; 1; 0; 1; 0; 0; 1; 1; 0; 1; 1; 1; 1;
  1; 1; 0; 0; 0; 1; 1; 1; 1; 0; 1; 1; 1].

(** the automaton on rows, for computing *)
Definition list_step (N n : Z) (q : list Z * list Z) : list Z * list Z :=
  let '(p, s) := q in (s, row n (fun v => Z.lxor (eca N v (cell_of s v) (map (cell_of s) (ring_nb n 1 v))) (cell_of p v))).
Lemma list_step_spec N n p s k : 3 <= n -> Z.of_nat (length p) = n -> Z.of_nat (length s) = n ->
  Nat.iter k (list_step N n) (p, s) = (row n (so_from (ring_nb n 1) (rule_table N) (cell_of p) (cell_of s) k), row n (so_state (ring_nb n 1) (rule_table N) (cell_of p) (cell_of s) k)).
Proof.
  intros Hn Hp Hs. assert (Hrow : forall l, Z.of_nat (length l) = n -> l = row n (cell_of l)).
  { intros l Hl. apply nth_error_ext. intros i. destruct (Nat.lt_ge_cases i (length l)) as [Hi|Hi].
    - unfold row. rewrite nth_error_map, nth_error_zrange by lia. cbn [option_map]. unfold cell_of. replace (Z.to_nat (0 + Z.of_nat i)) with i by lia. apply nth_error_nth'. exact Hi.
    - rewrite !(proj2 (nth_error_None _ _)); [reflexivity|rewrite row_length; lia|exact Hi]. }
  induction k as [|k IH]; [change (Nat.iter 0 (list_step N n) (p, s)) with (p, s); cbn [so_from]; unfold so_state; cbn [orbit snd]; f_equal; apply Hrow; assumption|].
  change (Nat.iter (S k) (list_step N n) (p, s)) with (list_step N n (Nat.iter k (list_step N n) (p, s))). rewrite IH. unfold list_step. f_equal. apply row_ext. intros v Hv. rewrite so_next, !cell_of_row by exact Hv. f_equal.
  match goal with |- eca _ _ _ ?l = rule_table _ _ _ _ ?l' => enough (El : l = l') by (rewrite El; reflexivity) end. apply map_ext_in. intros w Hw. apply cell_of_row. apply in_map_iff in Hw. destruct Hw as (d & <- & _). apply Z.mod_pos_bound. lia.
Qed.

Lemma rows_reversed n b b' M : (forall j, (j <= M + 2)%nat -> forall v, 0 <= v < n -> b' j v = b (M + 2 - j)%nat v) ->
  rows n (fun k => b (S k)) (M + 2) = [row n (b' (S M))] ++ rev (rows n (fun k => b' (S k)) M) ++ [row n (b (M + 2)%nat)].
Proof.
  intros Hrev. assert (Hl : forall st T, length (rows n st T) = T) by (intros; unfold rows; rewrite map_length, seq_length; reflexivity).
  assert (Hat : forall st T k, (k < T)%nat -> nth_error (rows n st T) k = Some (row n (st k))) by (intros st T k Hk; unfold rows; rewrite nth_error_map, (nth_error_nth' _ 0%nat), seq_nth by (rewrite ?seq_length; exact Hk); reflexivity).
  apply nth_error_ext. intros i. destruct (Nat.lt_ge_cases i (M + 2)) as [Hi|Hi].
  - rewrite Hat by exact Hi. destruct i as [|i].
    + cbn [app nth_error]. f_equal. apply row_ext. intros v Hv. rewrite Hrev by (try lia; exact Hv). replace (M + 2 - S M)%nat with 1%nat by lia. reflexivity.
    + cbn [app nth_error]. destruct (Nat.lt_ge_cases i M) as [Hm|Hm].
      * rewrite nth_error_app1 by (rewrite rev_length, Hl; exact Hm). rewrite (nth_error_nth' _ []) by (rewrite rev_length, Hl; exact Hm). rewrite rev_nth by (rewrite Hl; exact Hm). rewrite Hl.
        rewrite <- (nth_error_nth' _ []) by (rewrite Hl; lia). rewrite Hat by lia. f_equal. apply row_ext. intros v Hv. rewrite Hrev by (try lia; exact Hv). f_equal. lia.
      * rewrite nth_error_app2 by (rewrite rev_length, Hl; exact Hm). rewrite rev_length, Hl. replace (i - M)%nat with 0%nat by lia. cbn [nth_error]. do 3 f_equal. lia.
  - rewrite !(proj2 (nth_error_None _ _)); [reflexivity| |rewrite Hl; exact Hi]. rewrite !app_length, rev_length, Hl. cbn [length]. lia.
Qed.

(** the carefully chosen states lead to the block: rule122R_reverse_demo.py plots the rows of rule122R_entropy_demo.py in the reverse order,
    with one more row at either end *)
Theorem C106_rule122R : forall {U I BA BN} (W : env Z Z Z BA BN) fuel (u0 : U), (forall i, e_lab W i = Z.of_nat i) -> (1002 <= fuel)%nat ->
  exists R R' x, reversible_demo W fuel u0 100 (nks_ca_rule (I := I) 122) block block 1000 = Ok R /\
    reversible_demo W fuel u0 100 (nks_ca_rule (I := I) 122) chosen_state previous_state 1002 = Ok R' /\
    length R = 1000%nat /\ R' = [x] ++ rev R ++ [block].
Proof.
  intros U I BA BN W fuel u0 Hlab Hf.
  assert (Hbits : forall l : list Z, forallb (fun a => (a =? 0) || (a =? 1)) l = true -> Forall bit l).
  { intros l Hl. apply Forall_forall. intros a Ha. rewrite forallb_forall in Hl. specialize (Hl a Ha). apply orb_prop in Hl. destruct Hl as [Hl|Hl]; apply Z.eqb_eq in Hl; [left|right]; exact Hl. }
  destruct (ring_lattice 100 1 ltac:(lia) ltac:(lia) ltac:(lia)) as (net & _ & (_ & _ & _ & _ & _ & Hub)).
  assert (Hc : Nat.iter 1001 (list_step 122 100) (previous_state, chosen_state) = (block, block)) by (vm_compute; reflexivity).
  rewrite list_step_spec in Hc by (vm_compute; congruence).
  assert (Hb1 : Forall bit block) by (apply Hbits; vm_compute; reflexivity). assert (Hb2 : Forall bit chosen_state) by (apply Hbits; vm_compute; reflexivity). assert (Hb3 : Forall bit previous_state) by (apply Hbits; vm_compute; reflexivity).
  pose proof (C106_demo (I := I) W Hlab fuel u0 100 122 block block 1000 ltac:(lia) ltac:(lia) eq_refl eq_refl Hb1 Hb1 ltac:(lia) ltac:(lia)) as D1.
  pose proof (C106_demo (I := I) W Hlab fuel u0 100 122 chosen_state previous_state 1002 ltac:(lia) ltac:(lia) eq_refl eq_refl Hb2 Hb3 ltac:(lia) ltac:(lia)) as D2.
  pose proof (so_law (ring_nb 100 1) (fun v => 0 <= v < 100) (rule_table 122) (cell_of previous_state) (cell_of chosen_state)) as L1.
  pose proof (so_law (ring_nb 100 1) (fun v => 0 <= v < 100) (rule_table 122) (cell_of block) (cell_of block)) as L2.
  change (so_state (ring_nb 100 1) (rule_table 122) (cell_of block) (cell_of block)) with (fun k => so_from (ring_nb 100 1) (rule_table 122) (cell_of block) (cell_of block) (S k)) in D1.
  change (so_state (ring_nb 100 1) (rule_table 122) (cell_of previous_state) (cell_of chosen_state)) with (fun k => so_from (ring_nb 100 1) (rule_table 122) (cell_of previous_state) (cell_of chosen_state) (S k)) in Hc, D2.
  assert (B0 : forall k, (k < 2)%nat -> so_from (ring_nb 100 1) (rule_table 122) (cell_of block) (cell_of block) k = cell_of block) by (intros [|[|k]] Hk; [reflexivity|reflexivity|lia]).
  revert Hc L1 L2 B0 D1 D2. generalize (so_from (ring_nb 100 1) (rule_table 122) (cell_of previous_state) (cell_of chosen_state)) (so_from (ring_nb 100 1) (rule_table 122) (cell_of block) (cell_of block)).
  intros b b' Hc L1 L2 B0 D1 D2. cbn beta in Hc. apply pair_equal_spec in Hc. destruct Hc as [F1 F2].
  assert (Hrow : row 100 (cell_of block) = block) by (vm_compute; reflexivity).
  assert (E0 : forall v, 0 <= v < 100 -> b' 0%nat v = b 1002%nat v) by (intros v Hv; rewrite B0 by lia; apply (row_inj 100); [rewrite F2; exact Hrow|exact Hv]).
  assert (E1 : forall v, 0 <= v < 100 -> b' 1%nat v = b 1001%nat v) by (intros v Hv; rewrite B0 by lia; apply (row_inj 100); [rewrite F1; exact Hrow|exact Hv]).
  pose proof (law_reverse (ring_nb 100 1) (fun v => 0 <= v < 100) Hub (eca 122) b b' 1001 L1 L2 E0 E1) as Hrev.
  eexists _, _, (row 100 (b' 1001%nat)). split; [exact D1|]. split; [exact D2|].
  split; [unfold rows; rewrite map_length, seq_length; reflexivity|].
  change (Z.to_nat 1002) with (1000 + 2)%nat. change (Z.to_nat 1000) with 1000%nat.
  rewrite (rows_reversed 100 b b' 1000 Hrev). change (1000 + 2)%nat with 1002%nat. rewrite F2. reflexivity.
Qed.

(** with the perturbed rule of perturbation_reversible_demo.py the way back is not the way there *)
Theorem C106_perturbed_not_undone_refuted : exists init : list Z,
  Z.of_nat (length init) = 5 /\ Forall bit init /\
  match there_and_back_demo (I := Z) W0 40 (0 : Z) 5 (perturbed_rule 90) init 12 22 with Ok R => rev R <> R | Err _ => False end.
Proof. exists [0; 0; 1; 0; 0]. split; [reflexivity|]. split; [repeat (constructor; [unfold bit; auto|]); constructor|]. vm_compute. discriminate. Qed.

Print Assumptions C106_second_order.
Print Assumptions C106_perturbed.
Print Assumptions C106_determined_both_ways.
Print Assumptions C106_recurrence.
Print Assumptions C106_demo.
Print Assumptions C106_there_and_back.
Print Assumptions C106_rule214R.
Print Assumptions C106_rule122R.
Print Assumptions C106_perturbed_not_undone_refuted.

(** ** Examples *)
Definition bits5 : list Z := [0; 0; 1; 0; 1].
Definition past5 : list Z := [1; 0; 0; 1; 0].
Lemma config5 l : length l = 5%nat -> Forall bit l -> config W0 5 bit (CList l).
Proof.
  intros Hl Hb. destruct l as [|a [|b [|c [|d [|e [|]]]]]]; try discriminate. split; [reflexivity|]. intros v Hv.
  assert (Hc : v = 0 \/ v = 1 \/ v = 2 \/ v = 3 \/ v = 4) by lia.
  repeat match goal with H : Forall bit (_ :: _) |- _ => inversion H; subst; clear H end.
  destruct Hc as [-> | [-> | [-> | [-> | -> ]]]]; eexists; (split; [vm_compute; reflexivity|assumption]).
Qed.

Example C106_nonvacuous : static (rev_args (U := Z) (I := Z) (nks_ca_rule 90) [CList past5]) (stateless (reversible_call (nks_ca_rule 90))) /\
  config W0 5 bit (CList bits5) /\ config W0 5 bit (CList past5) /\ 0 <= 90 < 2 ^ (2 ^ (2 * 1 + 1)) /\
  reversible_demo (I := Z) W0 40 (0 : Z) 5 (nks_ca_rule 90) bits5 past5 4 = Ok [[0; 0; 1; 0; 1]; [0; 1; 0; 1; 0]; [1; 0; 1; 0; 0]; [0; 1; 0; 0; 1]].
Proof.
  split; [repeat split; reflexivity|]. split; [apply config5; [reflexivity|repeat (constructor; [unfold bit; auto|]); constructor]|].
  split; [apply config5; [reflexivity|repeat (constructor; [unfold bit; auto|]); constructor]|]. split; [vm_compute; split; congruence|]. vm_compute. reflexivity.
Qed.

(** the past and the first state come back *)
Example C106_recurrence_example : match reversible_demo (I := Z) W0 40 (0 : Z) 5 (nks_ca_rule 90) bits5 past5 20 with
  | Ok R => existsb (fun k => if list_eq_dec Z.eq_dec (nth k R []) past5 then (if list_eq_dec Z.eq_dec (nth (S k) R []) bits5 then true else false) else false) (seq 0 19) = true
  | Err _ => False end.
Proof. vm_compute. reflexivity. Qed.

Example C106_there_and_back_example : there_and_back_demo (I := Z) W0 40 (0 : Z) 5 (nks_ca_rule 214) bits5 4 6 =
  Ok [[0; 1; 0; 0; 0]; [1; 1; 0; 0; 0]; [0; 0; 1; 0; 1]; [0; 0; 1; 0; 1]; [1; 1; 0; 0; 0]; [0; 1; 0; 0; 0]].
Proof. vm_compute. reflexivity. Qed.

(** timestep 10 of the perturbed run *)
Example C106_perturbed_example : match reversible_demo (I := Z) W0 40 (0 : Z) 5 (perturbed_rule 90) bits5 past5 11 with
  | Ok R => nth 10 R [] = map (fun a => 1 - a) (nth 8 R []) /\ nth 8 R [] <> nth 9 R [] | Err _ => False end.
Proof. vm_compute. split; [reflexivity|discriminate]. Qed.
