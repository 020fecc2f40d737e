(** * C73: watts_strogatz_graph *)
From Verif Require Import Py PyFacts ListFacts Network NetworkSpec NetworkProofs Topology TopologySpec TopologyProofs5 Lattice LatticeProofs WattsStrogatzSpec WattsStrogatz WattsStrogatzProofs.
Open Scope string_scope.
Open Scope list_scope.
Open Scope Z_scope.

Lemma half_facts n k : 2 <= k < n -> 1 <= k / 2 /\ 2 * (k / 2) < n.
Proof. intros Hk. pose proof (Z.div_mod k 2 ltac:(lia)). pose proof (Z.mod_pos_bound k 2 ltac:(lia)). lia. Qed.

(** whatever is drawn, the result (if the redrawing ends) is a small-world wiring; the only way not to get one is to redraw forever *)
Theorem C73_small_world : forall fuel coin pick n k, 2 <= k < n -> let h := k / 2 in
  match watts_strogatz_graph fuel coin pick n k with
  | Ok net => exists to : Z -> Z -> Z, wiring n h to /\
      (forall u j, wired n h u j -> coin j u = false -> to u j = (u + j) mod n) /\
      NoDup (nodes net) /\ (forall v, In v (nodes net) <-> 0 <= v < n) /\
      (forall a b, (partners n h to a b -> edge net a b = Ok [[("weight", 1)]]) /\ (~ partners n h to a b -> edge net a b = Err KeyError)) /\
      (forall v, edge net v v = Err KeyError) /\
      Z.of_nat (length (edges net)) = 2 * (n * h) /\
      (forall u, 0 <= u < n -> exists d, out_degree net u = Ok d /\ in_degree net u = Ok d /\ h <= d)
  | Err e => e = OutOfFuel
  end.
Proof.
  intros fuel coin pick n k Hk h. destruct (half_facts n k Hk) as [Hh Hn]. pose proof (watts_strogatz_spec n h Hh Hn fuel coin pick k eq_refl ltac:(lia)) as Hs.
  destruct (watts_strogatz_graph fuel coin pick n k) as [net|e]; [|assumption]. destruct Hs as (g & to & E & Hg & Hto).
  destruct (network_spec n h Hh Hn g to net Hg E) as (_ & Hnd & Hnodes & Hedge & Hlen & Hdeg). pose proof Hg as (_ & _ & Hw & _). exists to.
  split; [assumption|]. split; [intros u j _ Hc; destruct (Hto u j) as [Hx|Hx]; [exact Hx|congruence]|]. split; [assumption|]. split; [assumption|]. split; [assumption|].
  split; [|split; assumption]. intros v. apply Hedge. intros Hp. apply (partners_bound n h) in Hp; [|assumption]. destruct Hp as (_ & _ & Hp). congruence.
Qed.

(** one rewiring step: the edge u-v moves to the first drawn node that is neither u nor a neighbour of u; nothing happens when the
    coin says so, and (after at least one useless draw) when u is joined to everything *)
Theorem C73_rewiring : forall fuel coin pick n k to g i u j, 2 <= k < n -> let h := k / 2 in
  dkeys g = zrange 0 n -> simple g -> wiring n h to -> (forall a b, adj g a b <-> partners n h to a b) -> wired n h u j ->
  match rewire fuel n coin pick j (g, i) (u, to u j) with
  | Ok (g', i') =>
      (coin j u = false /\ g' = g /\ i' = i) \/
      (coin j u = true /\ g' = g /\ forall w, 0 <= w < n -> w <> u -> adj g u w) \/
      (coin j u = true /\ exists m, (i <= m)%nat /\ i' = S m /\ let w := pick m mod n in
        w <> u /\ ~ adj g u w /\ (forall l, (i <= l < m)%nat -> pick l mod n = u \/ adj g u (pick l mod n)) /\
        forall x y, adj g' x y <-> (adj g x y /\ ~ (x = u /\ y = to u j) /\ ~ (x = to u j /\ y = u)) \/ (x = u /\ y = w) \/ (x = w /\ y = u))
  | Err e => e = OutOfFuel
  end.
Proof.
  intros fuel coin pick n k to g i u j Hk h Hkeys Hs Hw Ha Hd. destruct (half_facts n k Hk) as [Hh Hn]. assert (Hg : holds n h g to) by (split; [assumption|]; split; [assumption|]; split; assumption).
  unfold rewire. destruct (coin j u) eqn:Ec; [|auto]. destruct (redraw fuel n pick g u (pick i mod n) (S i)) as [[ow i']|e] eqn:Er; cbn [rbind]; [|eapply redraw_err; eassumption].
  apply redraw_spec in Er. destruct ow as [w|].
  - destruct Er as (m & Hm & -> & -> & Hf & Hl). destruct (move_spec n h g to u j (pick m mod n) Hg Hd ltac:(apply Z.mod_pos_bound; lia) Hf) as (g' & -> & _ & Hadj). cbn [rbind]. right. right. split; [reflexivity|].
    exists m. split; [assumption|]. split; [reflexivity|]. cbv zeta. unfold busy in *. split; [tauto|]. split; [tauto|]. split; [assumption|exact Hadj].
  - right. left. split; [reflexivity|]. split; [reflexivity|]. intros w Hwn Hwu. destruct (has_edge_adj g u w) as [Hx _]. destruct (ug_has_edge g u w) eqn:Ew; [auto|]. exfalso.
    apply has_edge_nadj in Ew. destruct (dget_key_some g u) as [l El]; [rewrite Hkeys; apply in_zrange; apply Hd|]. unfold ug_degree in Er. rewrite El in Er.
    assert (Hself : existsb (Z.eqb u) l = false). { apply existsb_out. intros Hu. assert (Huu : partners n h to u u) by (apply Ha; exists l; auto). apply (partners_bound n h) in Huu; [|assumption]. tauto. }
    rewrite Hself in Er. assert (Hincl : incl (u :: w :: l) (zrange 0 n)).
    { intros x [<-|[<-|Hi]]; apply in_zrange; [apply Hd|assumption|]. assert (Hux : partners n h to u x) by (apply Ha; exists l; auto). apply (partners_bound n h) in Hux; tauto. }
    apply NoDup_incl_length in Hincl; [rewrite length_zrange in Hincl; cbn [length] in Hincl; lia|]. apply existsb_out in Hself. constructor; [intros [Hi|Hi]; [congruence|contradiction]|].
    constructor; [intros Hi; apply Ew; exists l; auto|]. destruct Hs as (_ & Hl & _). eapply Hl. exact El.
Qed.

(** without rewiring: nodes at ring distance 1 .. k/2 are joined *)
Theorem C73_ring : forall fuel coin pick n k, 2 <= k < n -> (forall j u, coin j u = false) ->
  exists net, watts_strogatz_graph fuel coin pick n k = Ok net /\
    forall a b, 0 <= a < n -> 0 <= b < n ->
      (1 <= ring_distance n a b <= k / 2 -> edge net a b = Ok [[("weight", 1)]]) /\
      (~ 1 <= ring_distance n a b <= k / 2 -> edge net a b = Err KeyError).
Proof.
  intros fuel coin pick n k Hk Hc. destruct (half_facts n k Hk) as [Hh Hn].
  assert (Eg : ws_graph fuel coin pick n k = Ok (ws_ring n k)).
  { unfold ws_graph. assert (Hin : forall j l st, rfold (rewire fuel n coin pick j) l st = Ok st) by (intros j; induction l as [|[u v] l IH]; intros [g i]; [reflexivity|]; cbn [rfold]; unfold rewire at 1; rewrite Hc; cbn [rbind]; apply IH).
    assert (Hout : forall js st, rfold (fun st j => rfold (rewire fuel n coin pick j) (ws_pairs n j) st) js st = Ok st) by (induction js as [|j js IH]; intros st; [reflexivity|]; cbn [rfold]; rewrite Hin; cbn [rbind]; apply IH).
    rewrite Hout. reflexivity. }
  pose proof (ring_holds n (k / 2) Hh Hn k eq_refl) as Hg. destruct (TopologyProofs3.from_adj_R nzb (matrix_of (ws_ring n k))) as (net & E & _). exists net. split.
  - unfold watts_strogatz_graph. destruct (Z.ltb_spec n k); [lia|]. destruct (Z.eqb_spec k n); [lia|]. rewrite Eg. cbn [rbind]. rewrite (adjacency_ok n (k / 2) Hh Hn _ _ Hg). cbn [rbind]. rewrite E. reflexivity.
  - destruct (network_spec n (k / 2) Hh Hn _ _ net Hg E) as (_ & _ & _ & Hedge & _). intros a b Ha Hb.
    assert (Hp : partners n (k / 2) (ring_to n) a b <-> 1 <= ring_distance n a b <= k / 2).
    { unfold partners, wired, ring_to, ring_distance.
      assert (Hm : forall x y, 0 <= x < n -> 0 <= y < n -> (y - x) mod n = if x <=? y then y - x else y - x + n).
      { intros x y Hx Hy. destruct (Z.leb_spec x y); [apply Z.mod_small; lia|]. symmetry. apply Z.mod_unique with (q := -1); lia. }
      rewrite (Hm a b Ha Hb), (Hm b a Hb Ha). split.
      - intros (u & j & [Hu Hj] & Hx). rewrite mod_wrap in Hx by lia. destruct (Z.ltb_spec (u + j) n), (Z.leb_spec a b), (Z.leb_spec b a); lia.
      - intros Hx.
        assert (Hor : (exists j, 1 <= j <= k / 2 /\ b = (a + j) mod n) \/ (exists j, 1 <= j <= k / 2 /\ a = (b + j) mod n)).
        { destruct (Z.leb_spec a b), (Z.leb_spec b a); try lia.
          - destruct (Z.le_gt_cases (b - a) (k / 2)) as [Hy|Hy]; [left; exists (b - a)|right; exists (a - b + n)]; (split; [lia|]); rewrite mod_wrap by lia; destruct (Z.ltb_spec (a + (b - a)) n), (Z.ltb_spec (b + (a - b + n)) n); lia.
          - destruct (Z.le_gt_cases (a - b) (k / 2)) as [Hy|Hy]; [right; exists (a - b)|left; exists (b - a + n)]; (split; [lia|]); rewrite mod_wrap by lia; destruct (Z.ltb_spec (b + (a - b)) n), (Z.ltb_spec (a + (b - a + n)) n); lia. }
        destruct Hor as [(j & Hj & Ej)|(j & Hj & Ej)]; [exists a, j|exists b, j]; auto. }
    rewrite <- Hp. apply Hedge.
Qed.

(** when every node keeps being drawn, the redrawing ends *)
Theorem C73_terminates : forall coin pick n k, 2 <= k < n -> keeps_drawing n pick -> exists fuel net, watts_strogatz_graph fuel coin pick n k = Ok net.
Proof. intros coin pick n k Hk Hp. destruct (half_facts n k Hk) as [Hh Hn]. apply (watts_strogatz_finishes n (k / 2) Hh Hn coin pick k eq_refl ltac:(lia) Hp). Qed.

(** the other arguments *)
Theorem C73_boundaries : forall fuel coin pick n k,
  (n < k -> watts_strogatz_graph fuel coin pick n k = Err (Raise "NetworkXError")) /\
  (k < 2 -> ~ (k = 1 /\ n = 1) -> watts_strogatz_graph fuel coin pick n k = Err (Raise "NetworkXError")) /\
  (k = 1 -> n = 1 -> watts_strogatz_graph fuel coin pick n k = Ok empty_network) /\
  (k = n -> 2 <= n -> exists net, watts_strogatz_graph fuel coin pick n k = Ok net /\ (forall v, In v (nodes net) <-> 0 <= v < n) /\
     (forall i j, 0 <= i < n -> 0 <= j < n -> i <> j -> edge net i j = Ok [[("weight", 1)]]) /\
     (forall i j, ~ (0 <= i < n /\ 0 <= j < n /\ i <> j) -> edge net i j = Err KeyError)).
Proof.
  intros fuel coin pick n k. unfold watts_strogatz_graph. split; [|split; [|split]].
  - intros Hx. destruct (Z.ltb_spec n k); [reflexivity|lia].
  - intros Hk Hx. destruct (Z.ltb_spec n k); [reflexivity|]. destruct (Z.eqb_spec k n) as [->|Hne].
    + destruct (complete n) as [net r] eqn:E. pose proof (proj2 complete_small n ltac:(lia)) as Hc. rewrite E in Hc. cbn [snd] in Hc. rewrite Hc. reflexivity.
    + assert (Hd : k / 2 <= 0) by (apply (Z.div_le_mono k 1 2); lia). unfold ws_graph, ws_ring. rewrite zrange_nil by lia. reflexivity.
  - intros -> ->. reflexivity.
  - intros -> Hn. destruct (Z.ltb_spec n n); [lia|]. rewrite Z.eqb_refl. destruct (complete_spec n Hn) as (net & E & H1 & _ & H2 & H3). rewrite E. exists net. auto.
Qed.

(** ** Examples *)
(** 7 nodes, k = 4; the edges of node 2 are rewired; the first draws hit node 2 itself and its neighbour 1 *)
Definition ex_coin (j u : Z) : bool := u =? 2.
Definition ex_pick (i : nat) : Z := match i with O => 2 | S O => 1 | S (S O) => 6 | S (S (S O)) => 3 | _ => Z.of_nat i + 1 end.
Example C73_nonvacuous : exists net, watts_strogatz_graph 10 ex_coin ex_pick 7 4 = Ok net /\ edge net 2 6 = Ok [[("weight", 1)]] /\ edge net 6 2 = Ok [[("weight", 1)]] /\
  edge net 2 3 = Ok [[("weight", 1)]] /\ edge net 2 4 = Err KeyError /\ length (edges net) = 28%nat /\ out_degree net 2 = Ok 4 /\ out_degree net 4 = Ok 3.
Proof. eexists. split; [vm_compute; reflexivity|]. repeat split. Qed.
Example C73_rewiring_nonvacuous : exists g, g = ws_ring 7 4 /\ dkeys g = zrange 0 7 /\ simple g /\ wiring 7 (4 / 2) (ring_to 7) /\ (forall a b, adj g a b <-> partners 7 (4 / 2) (ring_to 7) a b) /\ wired 7 (4 / 2) 2 1 /\
  exists g', rewire 10 7 ex_coin ex_pick 1 (g, O) (2, ring_to 7 2 1) = Ok (g', 3%nat) /\ adj g' 2 6 /\ ~ adj g' 2 3.
Proof.
  eexists. split; [reflexivity|]. destruct (ring_holds 7 (4 / 2) ltac:(vm_compute; discriminate) ltac:(reflexivity) 4 eq_refl) as (H1 & H2 & H3 & H4). repeat (split; [assumption|]). split; [unfold wired; change (4 / 2) with 2; lia|].
  eexists. split; [vm_compute; reflexivity|]. split; [apply has_edge_adj; reflexivity|apply has_edge_nadj; reflexivity].
Qed.
Example C73_terminates_nonvacuous : keeps_drawing 7 Z.of_nat.
Proof. intros w m Hw. exists (7 * m + Z.to_nat w)%nat. split; [lia|]. rewrite Nat2Z.inj_add, Nat2Z.inj_mul, Z2Nat.id by lia. rewrite Z.add_comm, Z.mul_comm, Z.mod_add by lia. apply Z.mod_small. lia. Qed.
(** a saturated node: 4 nodes with k = 3 give a ring; after (0, 1) moved to (0, 2) node 2 is joined to 1, 3 and 0 *)
Example C73_saturated : exists g g', ws_graph 10 (fun j u => u =? 0) (fun _ => 2) 4 3 = Ok g /\ ug_degree g 2 = 3 /\
  ws_graph 10 (fun j u => (u =? 0) || (u =? 2)) (fun _ => 2) 4 3 = Ok g' /\ g' = g.
Proof. eexists. eexists. split; [vm_compute; reflexivity|]. split; [reflexivity|]. split; vm_compute; reflexivity. Qed.

Print Assumptions C73_small_world.
Print Assumptions C73_rewiring.
Print Assumptions C73_ring.
Print Assumptions C73_terminates.
Print Assumptions C73_boundaries.
