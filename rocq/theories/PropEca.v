(** Property theorems for binary automata on rings (C82, C83). *)
From Verif Require Import Py PyFacts ListFacts Network Topology TopologySpec Evolve EvolveSpec EvolveProofs EvolveStatic Rules RulesSpec RulesProofs CaSpec CaRun CaNets EcaSpec EcaProofs PropRules PropCa PropEvolve.
Open Scope string_scope.
Open Scope list_scope.
Open Scope Z_scope.

(** C82: every rule number has exactly one mirror image and exactly one complement *)
Theorem C82_mirror_exists : forall m N, (1 <= m)%nat -> exists N', 0 <= N' < 2 ^ (2 ^ Z.of_nat m) /\ mirror_rule m N N' /\
  forall N'', 0 <= N'' < 2 ^ (2 ^ Z.of_nat m) -> mirror_rule m N N'' -> N'' = N'.
Proof.
  intros m N Hm. destruct (table_number m (fun l => Z.testbit N (number 2 (rev l))) Hm) as (N' & HN & Ht). exists N'. split; [assumption|].
  assert (Hmir : mirror_rule m N N') by (intros l Hl Hb; rewrite Ht, rev_involutive by (first [rewrite rev_length; assumption|apply bits_rev; assumption]); reflexivity).
  split; [assumption|]. intros N'' HN'' Hm''. apply (table_unique m); [assumption|assumption|assumption|]. intros l Hl Hb.
  rewrite <- (rev_involutive l). rewrite Hmir, Hm'' by (first [rewrite rev_length; assumption|apply bits_rev; assumption]). reflexivity.
Qed.
Print Assumptions C82_mirror_exists.

Theorem C82_complement_exists : forall m N, (1 <= m)%nat -> exists N', 0 <= N' < 2 ^ (2 ^ Z.of_nat m) /\ complement_rule m N N' /\
  forall N'', 0 <= N'' < 2 ^ (2 ^ Z.of_nat m) -> complement_rule m N N'' -> N'' = N'.
Proof.
  intros m N Hm. destruct (table_number m (fun l => negb (Z.testbit N (number 2 (map flip l)))) Hm) as (N' & HN & Ht). exists N'. split; [assumption|].
  assert (Hmir : complement_rule m N N') by (intros l Hl Hb; rewrite Ht, flip_flip by (first [rewrite map_length; assumption|apply bits_flip; assumption]); reflexivity).
  split; [assumption|]. intros N'' HN'' Hm''. apply (table_unique m); [assumption|assumption|assumption|]. intros l Hl Hb.
  rewrite <- (flip_flip l). rewrite Hmir, Hm'' by (first [rewrite map_length; assumption|apply bits_flip; assumption]). reflexivity.
Qed.
Print Assumptions C82_complement_exists.

Section Theorems.
  Context {U I BA BN : Type}.
  Notation env := (env Z Z Z BA BN).
  Notation args := (@args Z Z Z U I).

  (** the values an initial condition gives to the cells 0 .. n-1 *)
  Definition read (S : dict Z Z) (v : Z) : Z := match dget S v with Some a => a | None => 0 end.
  Lemma read_config (W : env) n c : config W n bit c -> forall v, 0 <= v < n -> dget (to_dict W c) v = Some (read (to_dict W c) v) /\ bit (read (to_dict W c) v).
  Proof. intros [_ Hc] v Hv. destruct (Hc v Hv) as (a & E & B). unfold read. rewrite E. auto. Qed.

  Lemma ring_nb_in n r v w : 0 < n -> In w (ring_nb n r v) -> 0 <= w < n.
  Proof. intros Hn Hw. apply in_map_iff in Hw. destruct Hw as (d & <- & _). apply Z.mod_pos_bound. lia. Qed.

  (** the mirror image of a rule, run on the mirror image of the cells, gives the mirror image of the run *)
  Theorem C82_mirror : forall (W : env) fuel (u0 u0' : U) n r N N' c c' T (g g' : args),
    3 <= n -> 0 <= r -> 2 * r + 1 <= n -> 0 <= N < 2 ^ (2 ^ (2 * r + 1)) -> 0 <= N' < 2 ^ (2 ^ (2 * r + 1)) -> mirror_rule (Z.to_nat (2 * r + 1)) N N' ->
    static g (stateless (nks_ca_rule N)) -> static g' (stateless (nks_ca_rule N')) -> 1 <= T -> (Z.to_nat T <= fuel)%nat ->
    config W n bit c -> Z.of_nat (length (to_dict W c')) = n -> (forall v, 0 <= v < n -> dget (to_dict W c') v = dget (to_dict W c) (- v mod n)) ->
    exists net hs hs', cellular_automaton n r true = Ok net /\ runs W fuel u0 net c T g hs /\ runs W fuel u0' net c' T g' hs' /\
      forall k S S' v, nth_error hs k = Some S -> nth_error hs' k = Some S' -> 0 <= v < n -> dget S' v = dget S (- v mod n).
  Proof.
    intros W fuel u0 u0' n r N N' c c' T g g' Hn Hr H2r HN HN' Hmir Hst Hst' HT Hf Hc Hl' Hcc.
    pose proof (read_config W n c Hc) as Hs. set (s := read (to_dict W c)) in *. assert (Hneg : forall v, 0 <= - v mod n < n) by (intros v; apply Z.mod_pos_bound; lia).
    destruct (eca_run W fuel u0 n r N c T g s Hn Hr H2r HN Hst HT Hf (proj1 Hc) Hs) as (net & hs & E & _ & Hrun & Hk).
    destruct (eca_run W fuel u0' n r N' c' T g' (fun v => s (- v mod n)) Hn Hr H2r HN' Hst' HT Hf Hl') as (net' & hs' & E' & _ & Hrun' & Hk').
    { intros v Hv. rewrite (Hcc v Hv). apply Hs, Hneg. }
    assert (net' = net) by congruence. subst net'. exists net, hs, hs'. split; [assumption|]. split; [assumption|]. split; [assumption|].
    intros k S S' v Ek Ek' Hv. rewrite (Hk k S _ Ek (Hneg v)), (Hk' k S' v Ek' Hv). f_equal.
    refine (proj1 (ca_conj (fun v => 0 <= v < n) bit (ring_nb n r) (eca N) (eca N') (fun v => - v mod n) (fun a => a) s k _ _ _ _ _ v Hv)).
    - intros x w Hx Hw. apply (ring_nb_in n r x w); [lia|assumption].
    - intros x _. apply Hneg.
    - intros x Hx. apply Hs. assumption.
    - intros. apply bit_eca.
    - intros x t Hx Ht. unfold eca. f_equal. rewrite ring_nb_mirror, map_map, map_rev by lia. rewrite <- Hmir.
      + rewrite rev_involutive. reflexivity.
      + rewrite rev_length, map_length, length_ring_nb by assumption. reflexivity.
      + apply bits_rev, map_rev_bits. intros w Hw. apply Ht, Hneg.
  Qed.

  (** exchanging 0 and 1 *)
  Theorem C82_complement : forall (W : env) fuel (u0 u0' : U) n r N N' c c' T (g g' : args),
    3 <= n -> 0 <= r -> 2 * r + 1 <= n -> 0 <= N < 2 ^ (2 ^ (2 * r + 1)) -> 0 <= N' < 2 ^ (2 ^ (2 * r + 1)) -> complement_rule (Z.to_nat (2 * r + 1)) N N' ->
    static g (stateless (nks_ca_rule N)) -> static g' (stateless (nks_ca_rule N')) -> 1 <= T -> (Z.to_nat T <= fuel)%nat ->
    config W n bit c -> Z.of_nat (length (to_dict W c')) = n -> (forall v a, 0 <= v < n -> dget (to_dict W c) v = Some a -> dget (to_dict W c') v = Some (1 - a)) ->
    exists net hs hs', cellular_automaton n r true = Ok net /\ runs W fuel u0 net c T g hs /\ runs W fuel u0' net c' T g' hs' /\
      forall k S S' v, nth_error hs k = Some S -> nth_error hs' k = Some S' -> 0 <= v < n -> exists a, dget S v = Some a /\ bit a /\ dget S' v = Some (1 - a).
  Proof.
    intros W fuel u0 u0' n r N N' c c' T g g' Hn Hr H2r HN HN' Hmir Hst Hst' HT Hf Hc Hl' Hcc.
    pose proof (read_config W n c Hc) as Hs. set (s := read (to_dict W c)) in *.
    destruct (eca_run W fuel u0 n r N c T g s Hn Hr H2r HN Hst HT Hf (proj1 Hc) Hs) as (net & hs & E & _ & Hrun & Hk).
    destruct (eca_run W fuel u0' n r N' c' T g' (fun v => flip (s v)) Hn Hr H2r HN' Hst' HT Hf Hl') as (net' & hs' & E' & _ & Hrun' & Hk').
    { intros v Hv. destruct (Hs v Hv) as [Ev Bv]. split; [apply (Hcc v _ Hv Ev)|]. unfold flip, bit in *. lia. }
    assert (net' = net) by congruence. subst net'. exists net, hs, hs'. split; [assumption|]. split; [assumption|]. split; [assumption|].
    intros k S S' v Ek Ek' Hv. exists (ca_state (ring_nb n r) (eca N) k s v). split; [apply (Hk k S v Ek Hv)|]. rewrite (Hk' k S' v Ek' Hv).
    destruct (ca_conj (fun v => 0 <= v < n) bit (ring_nb n r) (eca N) (eca N') (fun v => v) flip s k) with (v := v) as [E1 E2]; [| | | | |assumption|split; [assumption|f_equal; exact E1]].
    - intros x w Hx Hw. apply (ring_nb_in n r x w); [lia|assumption].
    - auto.
    - intros x Hx. apply Hs. assumption.
    - intros. apply bit_eca.
    - intros x t Hx Ht. unfold eca. rewrite <- (map_map t flip). rewrite Hmir.
      + unfold flip. destruct (Z.testbit _ _); reflexivity.
      + rewrite map_length, length_ring_nb by assumption. reflexivity.
      + apply map_rev_bits. intros w Hw. apply Ht. apply (ring_nb_in n r x w); [lia|assumption].
  Qed.

  (** superposition: for a linear rule the run of the sum (mod 2) of two configurations is the sum of the runs *)
  Theorem C82_superposition : forall (W : env) fuel (u0 : U) n r N c c' c'' T (g : args),
    3 <= n -> 0 <= r -> 2 * r + 1 <= n -> 0 <= N < 2 ^ (2 ^ (2 * r + 1)) -> linear_rule (Z.to_nat (2 * r + 1)) N ->
    static g (stateless (nks_ca_rule N)) -> 1 <= T -> (Z.to_nat T <= fuel)%nat ->
    config W n bit c -> config W n bit c' -> Z.of_nat (length (to_dict W c'')) = n ->
    (forall v a b, 0 <= v < n -> dget (to_dict W c) v = Some a -> dget (to_dict W c') v = Some b -> dget (to_dict W c'') v = Some ((a + b) mod 2)) ->
    exists net hs hs' hs'', cellular_automaton n r true = Ok net /\ runs W fuel u0 net c T g hs /\ runs W fuel u0 net c' T g hs' /\ runs W fuel u0 net c'' T g hs'' /\
      forall k S S' S'' v, nth_error hs k = Some S -> nth_error hs' k = Some S' -> nth_error hs'' k = Some S'' -> 0 <= v < n ->
        exists a b, dget S v = Some a /\ dget S' v = Some b /\ dget S'' v = Some ((a + b) mod 2).
  Proof.
    intros W fuel u0 n r N c c' c'' T g Hn Hr H2r HN Hlin Hst HT Hf Hc Hc' Hl'' Hcc.
    pose proof (read_config W n c Hc) as Hs. set (s := read (to_dict W c)) in *. pose proof (read_config W n c' Hc') as Hs'. set (s' := read (to_dict W c')) in *.
    destruct (eca_run W fuel u0 n r N c T g s Hn Hr H2r HN Hst HT Hf (proj1 Hc) Hs) as (net & hs & E & _ & Hrun & Hk).
    destruct (eca_run W fuel u0 n r N c' T g s' Hn Hr H2r HN Hst HT Hf (proj1 Hc') Hs') as (net' & hs' & E' & _ & Hrun' & Hk').
    destruct (eca_run W fuel u0 n r N c'' T g (fun v => zxor (s v) (s' v)) Hn Hr H2r HN Hst HT Hf Hl'') as (net'' & hs'' & E'' & _ & Hrun'' & Hk'').
    { intros v Hv. split; [apply Hcc; [assumption|apply Hs; assumption|apply Hs'; assumption]|apply zxor_bit]. }
    assert (net' = net) by congruence. subst net'. assert (net'' = net) by congruence. subst net''. exists net, hs, hs', hs''. split; [assumption|]. split; [assumption|]. split; [assumption|]. split; [assumption|].
    intros k S S' S'' v E1 E2 E3 Hv. rewrite (Hk k S v E1 Hv), (Hk' k S' v E2 Hv), (Hk'' k S'' v E3 Hv). eexists. eexists. split; [reflexivity|]. split; [reflexivity|]. f_equal.
    apply (linear_state n r N s s' k); [lia|assumption|assumption|intros; apply Hs; assumption|intros; apply Hs'; assumption|assumption].
  Qed.

  (** C83: five elementary rules keep the number of ones *)
  Theorem C83_conserving : forall (W : env) fuel (u0 : U) n N c T (g : args), 3 <= n -> In N [170; 184; 204; 226; 240] ->
    static g (stateless (nks_ca_rule N)) -> 1 <= T -> (Z.to_nat T <= fuel)%nat -> config W n bit c ->
    exists net hs, cellular_automaton n 1 true = Ok net /\ runs W fuel u0 net c T g hs /\
      forall k S, nth_error hs k = Some S -> ones n S = ones n (to_dict W c).
  Proof.
    intros W fuel u0 n N c T g Hn HN Hst HT Hf Hc. pose proof (read_config W n c Hc) as Hs. set (s := read (to_dict W c)) in *.
    assert (Hr : 0 <= N < 2 ^ (2 ^ (2 * 1 + 1))) by (change (2 ^ (2 ^ (2 * 1 + 1))) with 256; cbn in HN; lia).
    destruct (eca_run W fuel u0 n 1 N c T g s Hn ltac:(lia) ltac:(lia) Hr Hst HT Hf (proj1 Hc) Hs) as (net & hs & E & _ & Hrun & Hk). exists net, hs. split; [assumption|]. split; [assumption|].
    assert (Hphi : exists phi, forall a b c, bit a -> bit b -> bit c -> Z.b2z (Z.testbit N (number 2 [a; b; c])) = b + phi a b - phi b c).
    { cbn in HN. destruct HN as [<-|[<-|[<-|[<-|[<-|[]]]]]]; [exists (fun x y => - y)|exists (fun x y => x * (1 - y))|exists (fun _ _ => 0)|exists (fun x y => - ((1 - x) * y))|exists (fun x _ => x)];
        intros x y z [-> | ->] [-> | ->] [-> | ->]; vm_compute; reflexivity. }
    destruct Hphi as [phi Hphi].
    assert (Hst' : forall k, (forall v, 0 <= v < n -> bit (ca_state (ring_nb n 1) (eca N) k s v)) /\ total n (ca_state (ring_nb n 1) (eca N) k s) = total n s).
    { induction k as [|k [IH1 IH2]]; [split; [intros; apply Hs; assumption|reflexivity]|]. split; [intros; apply bit_eca|]. rewrite ca_state_S, (flux_total n N phi); [assumption|lia|assumption|assumption]. }
    intros k S Ek. apply Nat2Z.inj. destruct (Hst' k) as [Hb Ht].
    rewrite (ones_total n S (ca_state (ring_nb n 1) (eca N) k s)), (ones_total n (to_dict W c) s); [assumption|assumption|].
    intros v Hv. split; [apply (Hk k S v Ek Hv)|apply Hb; assumption].
  Qed.

  (** ... and no other elementary rule does, on all rings *)
  Definition try4 (N : Z) (l : list Z) : bool :=
    negb (zsum (map (fun v => Z.b2z (Z.testbit N (number 2 (map (fun d => nth (Z.to_nat ((v + d) mod 4)) l 0) [-1; 0; 1])))) [0; 1; 2; 3]) =? zsum l).
  Definition all4 : list (list Z) := flat_map (fun a => flat_map (fun b => flat_map (fun c => map (fun d => [a; b; c; d]) [0; 1]) [0; 1]) [0; 1]) [0; 1].
  Theorem C83_only_these : forall (W : env) fuel (u0 : U) N (g : args), (forall i, e_lab W i = Z.of_nat i) -> 0 <= N < 256 -> ~ In N [170; 184; 204; 226; 240] ->
    static g (stateless (nks_ca_rule N)) -> (2 <= fuel)%nat ->
    exists l net hs S, config W 4 bit (CList l) /\ cellular_automaton 4 1 true = Ok net /\ runs W fuel u0 net (CList l) 2 g hs /\
      nth_error hs 1 = Some S /\ ones 4 S <> ones 4 (to_dict W (CList l)).
  Proof.
    intros W fuel u0 N g Hlab HN Hnot Hst Hf.
    assert (Hl : exists l, In l all4 /\ try4 N l = true).
    { assert (Hall : forallb (fun N => existsb (Z.eqb N) [170; 184; 204; 226; 240] || existsb (try4 N) all4) (zrange 0 256) = true) by (vm_compute; reflexivity).
      rewrite forallb_forall in Hall. specialize (Hall N (proj2 (in_zrange _ _ _) HN)). apply orb_true_iff in Hall. destruct Hall as [Hx|Hx].
      - exfalso. apply Hnot. apply existsb_exists in Hx. destruct Hx as (y & Hy & E). apply Z.eqb_eq in E. subst y. assumption.
      - apply existsb_exists in Hx. exact Hx. }
    destruct Hl as (l & Hin & Ht).
    assert (Hl4 : exists a b c d, l = [a; b; c; d] /\ bit a /\ bit b /\ bit c /\ bit d).
    { cbn in Hin. repeat (destruct Hin as [<-|Hin]; [do 4 eexists; split; [reflexivity|unfold bit; lia]|]). contradiction. }
    destruct Hl4 as (a & b & c & d & -> & Ba & Bb & Bc & Bd).
    assert (Hdict : to_dict W (CList [a; b; c; d]) = [(0, a); (1, b); (2, c); (3, d)]).
    { cbn. rewrite !Hlab. reflexivity. }
    set (s := fun v => nth (Z.to_nat v) [a; b; c; d] 0).
    assert (Hs : forall v, 0 <= v < 4 -> dget (to_dict W (CList [a; b; c; d])) v = Some (s v) /\ bit (s v)).
    { intros v Hv. rewrite Hdict. assert (Ev : v = 0 \/ v = 1 \/ v = 2 \/ v = 3) by lia. destruct Ev as [->|[->|[->| ->]]]; (split; [reflexivity|assumption]). }
    assert (Hc : config W 4 bit (CList [a; b; c; d])) by (split; [rewrite Hdict; reflexivity|]; intros v Hv; exists (s v); apply Hs; assumption).
    destruct (eca_run W fuel u0 4 1 N (CList [a; b; c; d]) 2 g s ltac:(lia) ltac:(lia) ltac:(lia) ltac:(change (2 ^ (2 ^ (2 * 1 + 1))) with 256; lia) Hst ltac:(lia) ltac:(lia) (proj1 Hc) Hs) as (net & hs & E & _ & Hrun & Hk).
    assert (Hlen : Z.of_nat (length hs) = 2) by (destruct Hrun as (? & ? & _ & El & _); exact El).
    destruct (nth_error hs 1) as [S|] eqn:E1; [|apply nth_error_None in E1; lia].
    exists [a; b; c; d], net, hs, S. split; [assumption|]. split; [assumption|]. split; [assumption|]. split; [assumption|]. intros Eo. apply (f_equal Z.of_nat) in Eo.
    rewrite (ones_total 4 S (ca_state (ring_nb 4 1) (eca N) 1 s)) in Eo by (intros v Hv; split; [apply (Hk 1%nat S v E1 Hv)|apply bit_eca]).
    rewrite (ones_total 4 _ s Hs) in Eo. unfold try4 in Ht. apply negb_true_iff, Z.eqb_neq in Ht. apply Ht.
    transitivity (total 4 (ca_state (ring_nb 4 1) (eca N) 1 s)); [|rewrite Eo]; unfold total; change (zrange 0 4) with [0; 1; 2; 3].
    - reflexivity.
    - reflexivity.
  Qed.
End Theorems.
Print Assumptions C82_mirror.
Print Assumptions C82_complement.
Print Assumptions C82_superposition.
Print Assumptions C83_conserving.
Print Assumptions C83_only_these.

(** 110 and its three relatives; 90, 150 and 60 are linear, 110 is not *)
Lemma all_bits3 (Q : list Z -> Prop) : (forall a b c, bit a -> bit b -> bit c -> Q [a; b; c]) -> forall l, length l = 3%nat -> is_bits l -> Q l.
Proof.
  intros Hq l Hl Hb. destruct l as [|a [|b [|c [|]]]]; try discriminate. inversion Hb as [|? ? H1 Hb1]; subst. inversion Hb1 as [|? ? H2 Hb2]; subst. inversion Hb2 as [|? ? H3 _]; subst. auto.
Qed.
Example C82_rules : mirror_rule 3 110 124 /\ complement_rule 3 110 137 /\ mirror_rule 3 137 193 /\ complement_rule 3 124 193 /\
  linear_rule 3 90 /\ linear_rule 3 150 /\ linear_rule 3 60 /\ ~ linear_rule 3 110.
Proof.
  splits; try (unfold mirror_rule, complement_rule; apply all_bits3; intros a b c [-> | ->] [-> | ->] [-> | ->]; vm_compute; reflexivity).
  1-3: (intros l l' Hl Hl' Hb Hb'; destruct l as [|a [|b [|c [|]]]]; try discriminate; destruct l' as [|x [|y [|z [|]]]]; try discriminate;
    inversion Hb as [|? ? H1 Hb1]; subst; inversion Hb1 as [|? ? H2 Hb2]; subst; inversion Hb2 as [|? ? H3 _]; subst;
    inversion Hb' as [|? ? G1 Gb1]; subst; inversion Gb1 as [|? ? G2 Gb2]; subst; inversion Gb2 as [|? ? G3 _]; subst;
    destruct H1 as [-> | ->], H2 as [-> | ->], H3 as [-> | ->], G1 as [-> | ->], G2 as [-> | ->], G3 as [-> | ->]; vm_compute; reflexivity).
  intros Hl. specialize (Hl [1; 1; 0] [0; 1; 1] eq_refl eq_refl).
  specialize (Hl ltac:(repeat (apply Forall_cons; [lia|]); apply Forall_nil) ltac:(repeat (apply Forall_cons; [lia|]); apply Forall_nil)). vm_compute in Hl. discriminate.
Qed.
Definition g_eca (N : Z) : args0 := base (Some (stateless (nks_ca_rule N))) None None [] SYNCHRONOUS false.
Definition bits11 : list Z := [0; 0; 1; 1; 0; 1; 1; 0; 1; 1; 0].
Example C82_C83_nonvacuous : static (g_eca 110) (stateless (nks_ca_rule 110)) /\ config W0 11 bit (CList bits11) /\ ones 11 (to_dict W0 (CList bits11)) = 6%nat /\
  (forall v, 0 <= v < 11 -> dget (to_dict W0 (CList (0 :: rev (tl bits11)))) v = dget (to_dict W0 (CList bits11)) (- v mod 11)).
Proof.
  assert (Hr : forall m (Q : Z -> Prop), (forall k, (k < m)%nat -> Q (Z.of_nat k)) -> forall v, 0 <= v < Z.of_nat m -> Q v) by (intros m Q Hq v Hv; rewrite <- (Z2Nat.id v) by lia; apply Hq; lia).
  split; [repeat split|]. split; [split; [reflexivity|apply (Hr 11%nat); intros k Hk; do 11 (destruct k as [|k]; [eexists; split; [vm_compute; reflexivity|unfold bit; lia]|]); lia]|].
  split; [reflexivity|].
  apply (Hr 11%nat). intros k Hk. do 11 (destruct k as [|k]; [vm_compute; reflexivity|]). lia.
Qed.
