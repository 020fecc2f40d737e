(** * Proofs: the Game of Life and Wireworld *)
From Verif Require Import Py PyFacts ListFacts Network Topology TopologySpec TopologyProofs TopologyProofs2 TopologyProofs3 TopologyProofs4.
From Verif Require Import Evolve EvolveSpec EvolveProofs EvolveProofs2 EvolveProofs3 EvolveStatic Rules RulesSpec RulesProofs.
Open Scope string_scope.
Open Scope list_scope.
Open Scope Z_scope.

Definition nine (rows cols a b : Z) : list Z := map (fun p => fst p * cols + snd p) ((a, b) :: eight rows cols a b).

Lemma mod_shift_inj m a d e : 3 <= m -> -1 <= d <= 1 -> -1 <= e <= 1 -> (a + d) mod m = (a + e) mod m -> d = e.
Proof.
  intros Hm Hd He E. pose proof (Z.div_mod (a + d) m ltac:(lia)) as E1. pose proof (Z.div_mod (a + e) m ltac:(lia)) as E2.
  rewrite E in E1. revert E1 E2. generalize ((a + d) / m), ((a + e) / m), ((a + e) mod m). intros q q' r E1 E2.
  assert (q = q') by nia. subst. lia.
Qed.

Definition offsets : list (Z * Z) := [(0, 0); (-1, -1); (-1, 0); (-1, 1); (0, -1); (0, 1); (1, -1); (1, 0); (1, 1)].
Lemma in_offsets dx dy : In (dx, dy) offsets <-> moore_offset 1 dx dy.
Proof.
  unfold moore_offset, offsets. split.
  - cbn. intros Hx. repeat (destruct Hx as [Hx|Hx]; [injection Hx as <- <-; cbn; lia|]). contradiction.
  - intros [H1 H2]. assert (Ex : dx = -1 \/ dx = 0 \/ dx = 1) by lia. assert (Ey : dy = -1 \/ dy = 0 \/ dy = 1) by lia.
    destruct Ex as [->|[->| ->]], Ey as [->|[->| ->]]; cbn; auto 12.
Qed.
Lemma nine_offsets rows cols a b : 0 <= a < rows -> 0 <= b < cols ->
  nine rows cols a b = map (fun d => cell cols ((a + fst d) mod rows) ((b + snd d) mod cols)) offsets.
Proof.
  intros Ha Hb. unfold nine, eight, offsets, cell. cbn [map fst snd]. rewrite !Z.add_0_r, !(Z.mod_small a), !(Z.mod_small b) by lia. reflexivity.
Qed.

Lemma NoDup_nine rows cols a b : 3 <= rows -> 3 <= cols -> 0 <= a < rows -> 0 <= b < cols -> NoDup (nine rows cols a b).
Proof.
  intros Hr Hc Ha Hb. rewrite nine_offsets by assumption.
  assert (Hinj : forall l, (forall d, In d l -> moore_offset 1 (fst d) (snd d)) -> NoDup l ->
    NoDup (map (fun d => cell cols ((a + fst d) mod rows) ((b + snd d) mod cols)) l)).
  { induction l as [|d l IH]; intros Hl Hnd; [constructor|]. inversion Hnd as [|? ? Hn Hnd']; subst. cbn [map]. constructor; [|apply IH; [intros; apply Hl; right; assumption|assumption]].
    intros Hin. apply in_map_iff in Hin. destruct Hin as (e & Ee & He). apply Hn.
    apply cell_inj in Ee; [|apply Z.mod_pos_bound; lia|apply Z.mod_pos_bound; lia]. destruct Ee as [E1 E2].
    pose proof (Hl d (or_introl eq_refl)) as [Hd1 Hd2]. pose proof (Hl e (or_intror He)) as [He1 He2].
    apply mod_shift_inj in E1; [|lia|lia|lia]. apply mod_shift_inj in E2; [|lia|lia|lia]. destruct d, e. cbn [fst snd] in *. subst. assumption. }
  apply Hinj; [intros [dx dy] Hd; apply in_offsets; assumption|]. unfold offsets. repeat constructor; cbn; intuition congruence.
Qed.

Lemma set_ordered_inv (net net' : network Z Z) : set_ordered net = (net', Ok tt) -> net_nodes net' = net_nodes net.
Proof.
  unfold set_ordered. destruct (rmap _ _) as [rs|]; [|discriminate]. unfold set_rotation_system. destruct (forallb _ _); intros E; inversion E; reflexivity.
Qed.

(** the nodes and neighbourhoods of the default 2D automaton *)
Lemma moore1 rows cols ordered : 3 <= rows -> 3 <= cols ->
  exists net, cellular_automaton2d rows cols 1 "Moore" ordered = Ok net /\ NoDup (nodes net) /\
    (forall v, In v (nodes net) <-> 0 <= v < rows * cols) /\ closed net /\
    forall a b l, 0 <= a < rows -> 0 <= b < cols -> nbrs_of net (a * cols + b) l -> Permutation l (nine rows cols a b).
Proof.
  intros Hr Hc. assert (Hn : 9 <= rows * cols) by nia.
  destruct (ca2d_ordered rows cols 1 "Moore" crit_moore ltac:(lia) ltac:(lia) Hn ltac:(lia) ltac:(auto)) as (net & rs & E & Erot & Ek & Hnd & Hnodes & Hv).
  assert (Hset : forall a b, 0 <= a < rows -> 0 <= b < cols -> exists T l inc, dget rs (cell cols a b) = Some T /\ in_edges net (cell cols a b) = Ok inc /\ dkeys inc = l /\
    Permutation T (nine rows cols a b) /\ Permutation l (nine rows cols a b) /\ incl l (nodes net)).
  { intros a b Ha Hb. destruct (Hv a b Ha Hb) as (T & l & inc & E1 & E2 & E3 & Hasc & Hub & Hin & j & Hj & ET & En). exists T, l, inc.
    assert (Hp : Permutation l (nine rows cols a b)).
    { apply NoDup_Permutation; [apply asc_NoDup; assumption|apply NoDup_nine; assumption|]. intros u. rewrite nine_offsets by assumption. rewrite in_map_iff. split.
      - intros Hu. destruct (cell_surj rows cols u ltac:(lia) (Hub u Hu)) as (Eu & Hcu & Hdu). rewrite Eu in Hu |- *. apply Hin in Hu; [|assumption|assumption].
        rewrite (torus_ext rows cols _ _ _ _ _ _ (moore_crit 1 _)) in Hu. apply torus_sym in Hu; [|unfold moore_offset; lia|assumption|assumption].
        destruct Hu as (dx & dy & Hm & E4 & E5). exists (dx, dy). cbn [fst snd]. rewrite <- E4, <- E5. split; [reflexivity|]. apply in_offsets. assumption.
      - intros ([dx dy] & <- & Hd). cbn [fst snd]. apply in_offsets in Hd. apply Hin; [apply Z.mod_pos_bound; lia|apply Z.mod_pos_bound; lia|].
        rewrite (torus_ext rows cols _ _ _ _ _ _ (moore_crit 1 _)). apply torus_sym; [unfold moore_offset; lia|assumption|assumption|]. exists dx, dy. auto. }
    split; [assumption|]. split; [assumption|]. split; [assumption|]. split; [rewrite ET; rewrite rot_perm; assumption|]. split; [assumption|].
    intros u Hu. apply Hnodes, Hub. assumption. }
  destruct ordered.
  - exists net. split; [assumption|]. split; [assumption|]. split; [assumption|]. split.
    + intros v Hvn. apply Hnodes in Hvn. destruct (cell_surj rows cols v ltac:(lia) Hvn) as (Ev & Ha & Hb). rewrite Ev.
      destruct (Hset _ _ Ha Hb) as (T & l & inc & E1 & E2 & E3 & HpT & Hpl & Hincl). exists inc, T. split; [assumption|].
      unfold nbrs_of. rewrite Erot. split; [assumption|]. intros u Hu. apply Hincl. eapply Permutation_in; [|exact Hu]. rewrite HpT. symmetry. assumption.
    + intros a b l Ha Hb Hl. unfold nbrs_of in Hl. rewrite Erot in Hl. destruct (Hset a b Ha Hb) as (T & l' & inc & E1 & _ & _ & HpT & _).
      unfold cell in E1. rewrite E1 in Hl. injection Hl as <-. assumption.
  - unfold cellular_automaton2d in *. destruct (adj_cellular_automaton2d rows cols 1 "Moore" "periodic") as [M|]; [|discriminate]. cbn [rbind] in *.
    destruct (from_adj_R nzb M) as (net0 & E2 & HR & Hrot). rewrite E2 in *. destruct (set_ordered net0) as [net1 [[]|]] eqn:Eo; [|discriminate]. injection E as ->.
    apply set_ordered_inv in Eo. exists net0. split; [reflexivity|]. assert (Enodes : nodes net0 = nodes net) by (unfold nodes; rewrite Eo; reflexivity).
    assert (Einc : forall v, in_edges net0 v = in_edges net v) by (intros v; unfold in_edges; rewrite Eo; reflexivity). rewrite Enodes. split; [assumption|]. split; [assumption|]. split.
    + intros v Hvn. rewrite Enodes in *. apply Hnodes in Hvn. destruct (cell_surj rows cols v ltac:(lia) Hvn) as (Ev & Ha & Hb). rewrite Ev.
      destruct (Hset _ _ Ha Hb) as (T & l & inc & E1' & E2' & E3' & HpT & Hpl & Hincl). exists inc, l. rewrite Einc. split; [assumption|].
      unfold nbrs_of. rewrite Hrot. split; [|assumption]. exists inc. rewrite Einc. split; [assumption|]. symmetry. assumption.
    + intros a b l Ha Hb Hl. unfold nbrs_of in Hl. rewrite Hrot in Hl. destruct Hl as (inc & Ei & ->). rewrite Einc in Ei.
      destruct (Hset a b Ha Hb) as (T & l' & inc' & E1' & E2' & E3' & HpT & Hpl & Hincl). unfold cell in E2'. rewrite E2' in Ei. injection Ei as <-.
      change (map fst inc') with (dkeys inc'). rewrite E3'. assumption.
Qed.

Definition value (S : dict Z Z) (v : Z) : Z := match dget S v with Some x => x | None => 0 end.

Lemma zsum_values S l na : Forall2 (fun w a => dget S w = Some a) l na -> zsum na = zsum (map (value S) l).
Proof. induction 1 as [|w a l na E Hf IH]; [reflexivity|]. cbn. unfold value at 1. rewrite E, IH. reflexivity. Qed.

Lemma zsum_alive cols S (ps : list (Z * Z)) : (forall p, In p ps -> dget S (fst p * cols + snd p) = Some 0 \/ dget S (fst p * cols + snd p) = Some 1) ->
  zsum (map (value S) (map (fun p => fst p * cols + snd p) ps)) = Z.of_nat (length (filter (alive cols S) ps)).
Proof.
  induction ps as [|p ps IH]; intros Hp; [reflexivity|]. cbn [map zsum filter]. rewrite IH by (intros; apply Hp; right; assumption).
  unfold value, alive at 2. destruct (Hp p (or_introl eq_refl)) as [E|E]; rewrite E; cbn; lia.
Qed.

Lemma in_eight rows cols a b p : 0 < rows -> 0 < cols -> In p (eight rows cols a b) -> 0 <= fst p < rows /\ 0 <= snd p < cols.
Proof.
  intros Hr Hc Hp. unfold eight in Hp. apply in_map_iff in Hp. destruct Hp as (d & <- & _). cbn [fst snd]. split; apply Z.mod_pos_bound; lia.
Qed.

Section Life.
  Context {U I BA BN : Type}.
  Notation env := (env Z Z Z BA BN).
  Notation args := (@args Z Z Z U I).
  Notation ctx := (node_ctx Z Z Z I).

  Lemma life_step (W : env) rows cols net S t past inp a b (x : ctx) : 3 <= rows -> 3 <= cols -> 0 <= a < rows -> 0 <= b < cols ->
    (forall l, nbrs_of net (a * cols + b) l -> Permutation l (nine rows cols a b)) -> grid01 (rows * cols) S ->
    ctx_for W net S t past inp (a * cols + b) x -> game_of_life_rule x = Ok (if conway rows cols S a b then 1 else 0).
  Proof.
    intros Hr Hc Ha Hb Hl Hg Hx. pose proof (Hl _ (cf_nbrs _ _ _ _ _ _ _ _ Hx)) as Hp. pose proof (cf_cur _ _ _ _ _ _ _ _ Hx) as Hcur.
    assert (Hsum : zsum (x_nacts x) = x_cur x + Z.of_nat (length (filter (alive cols S) (eight rows cols a b)))).
    { rewrite (zsum_values _ _ _ (cf_nacts _ _ _ _ _ _ _ _ Hx)). rewrite (zsum_perm _ _ (Permutation_map (value S) Hp)). unfold nine. cbn [map zsum].
      change (fst (a, b) * cols + snd (a, b)) with (a * cols + b). f_equal; [unfold value; rewrite Hcur; reflexivity|]. apply zsum_alive.
      intros p Hp'. destruct (in_eight rows cols a b p ltac:(lia) ltac:(lia) Hp') as [H1 H2]. apply Hg. apply (cell_bound rows cols); assumption. }
    unfold game_of_life_rule, conway. rewrite Hsum. set (n := length (filter (alive cols S) (eight rows cols a b))).
    unfold alive. cbn [fst snd]. rewrite Hcur.
    assert (E01 : x_cur x = 0 \/ x_cur x = 1) by (destruct (Hg (a * cols + b) (cell_bound rows cols a b Ha Hb)); [left|right]; congruence).
    destruct E01 as [-> | ->]; cbn [Z.eqb Pos.eqb].
    - rewrite Z.add_0_l. destruct (Nat.eqb_spec n 3), (Z.eqb_spec (Z.of_nat n) 3); try lia; reflexivity.
    - replace (1 + Z.of_nat n - 1) with (Z.of_nat n) by lia.
      destruct (Z.ltb_spec (Z.of_nat n) 2), (Z.eqb_spec (Z.of_nat n) 2), (Z.eqb_spec (Z.of_nat n) 3), (Nat.eqb_spec n 2), (Nat.eqb_spec n 3); cbn [orb]; try lia; reflexivity.
  Qed.

  Theorem game_of_life (W : env) rows cols ordered fuel (u0 : U) c T (g : args) : 3 <= rows -> 3 <= cols ->
    static g (stateless game_of_life_rule) -> 1 <= T -> (Z.to_nat T <= fuel)%nat ->
    Z.of_nat (length (to_dict W c)) = rows * cols -> grid01 (rows * cols) (to_dict W c) ->
    exists net uf traj hs, cellular_automaton2d rows cols 1 "Moore" ordered = Ok net /\
      evolve W fuel u0 net (Some c) (Some T) None g = Ok (uf, traj) /\ Z.of_nat (length hs) = T /\
      Forall2 (fun s S => activities W s = Ok (Some S)) traj hs /\ Forall (grid01 (rows * cols)) hs /\
      nth_error hs 0 = Some (to_dict W c) /\
      forall k S S' a b, nth_error hs k = Some S -> nth_error hs (Datatypes.S k) = Some S' -> 0 <= a < rows -> 0 <= b < cols ->
        alive cols S' (a, b) = conway rows cols S a b.
  Proof.
    intros Hr Hc Hst HT Hf Hlen Hg. destruct (moore1 rows cols ordered Hr Hc) as (net & E & Hnd & Hnodes & Hclosed & Hnb). exists net.
    assert (Hnl : net_len net = Z.to_nat (rows * cols)).
    { replace (net_len net) with (length (nodes net)) by (unfold nodes, dkeys; apply map_length). assert (Hp : Permutation (nodes net) (zrange 0 (rows * cols))).
      { apply NoDup_Permutation; [assumption|apply NoDup_zrange|]. intros v. rewrite in_zrange. apply Hnodes. }
      rewrite (Permutation_length Hp), length_zrange. f_equal. lia. }
    assert (Hstep : forall (hist : list (dict Z Z)) (S S' : dict Z Z), grid01 (rows * cols) S ->
      updated (I:=I) W game_of_life_rule None net S (Z.of_nat (length hist) + 1) (past_of W (g_past g) (hist ++ [S])) (InStr "__timestep__") S' ->
      forall a b, 0 <= a < rows -> 0 <= b < cols -> dget S' (a * cols + b) = Some (if conway rows cols S a b then 1 else 0)).
    { intros hist S S' HS [_ Hu] a b Ha Hb. destruct (Hu (a * cols + b) (proj2 (Hnodes _) (cell_bound rows cols a b Ha Hb))) as (x & y & y' & Hx & Ey & -> & Ed).
      rewrite Ed. f_equal. rewrite (life_step W rows cols net S _ _ _ _ _ x Hr Hc Ha Hb (fun l Hl => Hnb _ _ l Ha Hb Hl) HS Hx) in Ey. congruence. }
    destruct (stateless_run W fuel u0 net c T g game_of_life_rule (Forall (grid01 (rows * cols))) Hst Hnd HT Hf ltac:(lia) Hclosed) as (uf & traj & hs & Ee & Hl & Hshow & Hgr & Hz & Hs).
    - intros v Hv. apply Hnodes in Hv. destruct (Hg v Hv) as [->| ->]; eauto.
    - constructor; [assumption|constructor].
    - intros hist S v x Hi Hv Hx. apply Forall_app in Hi. destruct Hi as [_ Hi]. inversion Hi as [|? ? HS _]; subst.
      apply Hnodes in Hv. destruct (cell_surj rows cols v ltac:(lia) Hv) as (Ev & Ha & Hb). rewrite Ev in Hx. unfold cell in Hx.
      eexists. exact (life_step W rows cols net S _ _ _ _ _ x Hr Hc Ha Hb (fun l Hl => Hnb _ _ l Ha Hb Hl) HS Hx).
    - intros hist S S' Hi Hcov Hu. apply Forall_app. split; [assumption|]. constructor; [|constructor]. apply Forall_app in Hi. destruct Hi as [_ Hi]. inversion Hi as [|? ? HS _]; subst.
      intros v Hv. destruct (cell_surj rows cols v ltac:(lia) Hv) as (Ev & Ha & Hb). rewrite Ev. unfold cell. rewrite (Hstep hist S S' HS Hu _ _ Ha Hb).
      destruct (conway _ _ _ _ _); auto.
    - exists uf, traj, hs. split; [assumption|]. split; [assumption|]. split; [assumption|]. split.
      + clear - Hshow Hgr Hr Hc. induction Hshow as [|s S traj hs Es Hf IH]; [constructor|]. inversion Hgr as [|? ? HS Hrest]; subst. constructor; [|apply IH; assumption].
        rewrite Es. destruct S; [|reflexivity]. exfalso. destruct (HS 0 ltac:(nia)); discriminate.
      + split; [assumption|]. split; [assumption|]. intros k S S' a b Ek Ek' Ha Hb. pose proof (Hs k S S' Ek Ek') as Hu.
        assert (HS : grid01 (rows * cols) S) by (eapply (proj1 (Forall_forall _ _) Hgr); eapply nth_error_In; exact Ek).
        assert (Efn : firstn (Datatypes.S k) hs = firstn k hs ++ [S]) by (apply firstn_snoc; assumption). rewrite Efn in Hu.
        assert (Elen : k = length (firstn k hs)) by (rewrite firstn_length_le; [reflexivity|]; assert (k < length hs)%nat by (apply nth_error_Some; congruence); lia).
        rewrite Elen in Hu at 1. unfold alive at 1. cbn [fst snd]. rewrite (Hstep (firstn k hs) S S' HS Hu a b Ha Hb). destruct (conway _ _ _ _ _); reflexivity.
  Qed.
End Life.
