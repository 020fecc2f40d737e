(** Property theorem for demos/evolving_networks (C88): every node of a cubic network is replaced by a triangle. *)
From Verif Require Import Py PyFacts ListFacts Network NetworkSpec NetworkProofs NetworkProofs2 NetworkProofs3 NetMult Evolve EvolveSpec EvolveProofs TopoRun DemoNets EvolvingProofs.
Open Scope string_scope.
Open Scope list_scope.
Open Scope nat_scope.

(** ** Specification: undirected simple graphs in which every node has three neighbours *)
Section Spec.
  Context {V : Type}.
  Notation network := (network string V).

  (** [links n x y] (NetMult.v) is the number of edges from x to y in the listing [n.edges]. *)
  Record cubic (n : network) : Prop := mkCubic {
    cubic_sym : forall x y, links n x y = links n y x;
    cubic_simple : forall x y, links n x y <= 1;
    cubic_loopless : forall x, links n x x = 0;
    cubic_degree : forall v, In v (nodes n) -> length (filter (fun x => negb (links n x v =? 0)) (nodes n)) = 3 }.

  (** the three nodes that take the place of [v] *)
  Definition triangle (v : string) : list string := map (fun c => (v ++ c)%string) ["a"; "b"; "c"].
  (** the number of edges from a node of [X] to a node of [Y] *)
  Definition crossing (n : network) (X Y : list string) : nat := list_sum (map (fun x => list_sum (map (links n x) Y)) X).

  (** [n'] arises from [n] by replacing every node by a triangle and every edge by an edge between the triangles *)
  Record triangulated (n n' : network) : Prop := mkTri {
    tri_nodes : nodes n' = flat_map triangle (nodes n);
    tri_inside : forall v x y, In v (nodes n) -> In x (triangle v) -> In y (triangle v) -> x <> y -> links n' x y = 1;
    tri_between : forall u w, In u (nodes n) -> In w (nodes n) -> u <> w -> crossing n' (triangle u) (triangle w) = links n u w }.

  Definition same_length (k : nat) (n : network) : Prop := forall v, In v (nodes n) -> String.length v = k.

  (** ** Proofs *)
  Lemma degree_R (n : network) g v : R n g -> length (filter (fun x => negb (links n x v =? 0)) (nodes n)) = length (in_neighbours g v).
  Proof.
    intros HR. apply Permutation_length, NoDup_Permutation; [apply NoDup_filter; exact (R_NoDup _ _ HR)|apply NoDup_in_neighbours|].
    intros x. rewrite filter_In, in_neighbours_mult, (links_R n g x v HR), negb_true_iff, Nat.eqb_neq. split; [tauto|]. intros Hm. split; [|assumption].
    rewrite (labels_R n g HR). destruct (in_dec eqd x (labels g)); [assumption|]. exfalso. apply Hm, mult_outside; [apply HR|auto].
  Qed.
  Lemma cubic_good (n : network) g : R n g -> (cubic n <-> good g).
  Proof.
    intros HR. split.
    - intros [H1 H2 H3 H4]. constructor; intros; rewrite <- ?(links_R n g _ _ HR); auto; [apply HR|]. rewrite <- (degree_R n g v HR). apply H4. rewrite (labels_R n g HR). assumption.
    - intros [_ H1 H2 H3 H4]. constructor; intros; rewrite ?(links_R n g _ _ HR); auto. rewrite (degree_R n g v HR). apply H4. rewrite <- (labels_R n g HR). assumption.
  Qed.
  Lemma triangle_tri v : triangle v = tri v.
  Proof. reflexivity. Qed.
  Lemma links_copy (n : network) x y : links (copy n) x y = links n x y.
  Proof. reflexivity. Qed.
  Lemma crossing_R (n : network) g X Y : R n g -> crossing n X Y = total (mult g) X Y.
  Proof. intros HR. unfold crossing, total. f_equal. apply map_ext. intros x. f_equal. apply map_ext. intros y. apply links_R. assumption. Qed.

  Lemma sum_pos l : list_sum l <> 0 -> exists x, In x l /\ x <> 0.
  Proof. induction l as [|x l IH]; cbn; [congruence|]. destruct x; [cbn; intros Hs; destruct (IH Hs) as (y & Hy & Hn); eauto|]. intros _. eexists. split; [left; reflexivity|congruence]. Qed.

  Lemma triangulated_connected (n n' : network) : cubic n -> triangulated n n' -> (forall x y, links n x y <> 0 -> In x (nodes n) /\ In y (nodes n)) -> connected n -> connected n'.
  Proof.
    intros Hcub [Hn Hi Hb] Hends Hc.
    assert (Hin : forall u x y, In u (nodes n) -> In x (triangle u) -> In y (triangle u) -> path n' x y).
    { intros u x y Hu Hx Hy. destruct (eqd x y) as [->|Hne]; [constructor|]. econstructor; [|constructor]. rewrite (Hi u x y) by assumption. congruence. }
    assert (Hp : forall u w, path n u w -> In u (nodes n) -> forall x y, In x (triangle u) -> In y (triangle w) -> path n' x y).
    { induction 1 as [u|u v w Hl _ IH]; intros Hu x y Hx Hy; [eapply Hin; eassumption|].
      destruct (Hends u v Hl) as [_ Hv]. assert (Huv : u <> v) by (intros ->; rewrite cubic_loopless in Hl by assumption; congruence).
      rewrite <- (Hb u v Hu Hv Huv) in Hl. apply sum_pos in Hl. destruct Hl as (s & Hs & Hs0). apply in_map_iff in Hs. destruct Hs as (x1 & <- & Hx1).
      apply sum_pos in Hs0. destruct Hs0 as (s & Hs & Hs0). apply in_map_iff in Hs. destruct Hs as (y1 & <- & Hy1).
      eapply path_trans; [exact (Hin u x x1 Hu Hx Hx1)|]. eapply path_step; [exact Hs0|]. apply (IH Hv y1 y Hy1 Hy). }
    intros x y Hx Hy. rewrite Hn in Hx, Hy. apply in_flat_map in Hx, Hy. destruct Hx as (u & Hu & Hx), Hy as (w & Hw & Hy). exact (Hp u w (Hc u w Hu Hw) Hu x y Hx Hy).
  Qed.

  (** C88: one application of the rule *)
  Theorem C88_one_step : forall (n : network) k, reachable n -> cubic n -> same_length k n ->
    exists n', evolving_rule n = Ok n' /\ reachable n' /\ triangulated n n' /\ cubic n' /\ same_length (S k) n' /\ (connected n -> connected n').
  Proof.
    intros n k Hr Hc Hk. destruct (reachable_R n Hr) as [g HR]. assert (Hg : good g) by (apply (cubic_good n g HR); assumption).
    destruct (evolving_rule_ok k n g HR Hg Hk) as (n' & g' & E & R' & S'). destruct S' as [Hg' Hl Ht Hb]. exists n'. rewrite app_nil_r in Hb. cbn [app] in Hl.
    assert (Hn' : nodes n' = flat_map triangle (nodes n)) by (rewrite (labels_R n' g' R'), Hl; reflexivity).
    assert (HT : triangulated n n').
    { constructor; [assumption| |].
      - intros v x y Hv Hx Hy Hxy. rewrite (links_R n' g' x y R'). apply (Ht v); assumption.
      - intros u w Hu Hw Huw. rewrite (crossing_R n' g' _ _ R'), (links_R n g u w HR), <- (Hb u w Hu Hw Huw). unfold group.
        destruct (in_dec eqd u (nodes n)); [|contradiction]. destruct (in_dec eqd w (nodes n)); [|contradiction]. reflexivity. }
    split; [assumption|]. split; [exact (evolving_rule_reachable n n' Hr E)|]. split; [assumption|]. split; [apply (cubic_good n' g' R'); assumption|]. split.
    - intros x Hx. rewrite Hn' in Hx. apply in_flat_map in Hx. destruct Hx as (v & Hv & Hx). rewrite (tri_len v x Hx), (Hk v Hv). reflexivity.
    - apply triangulated_connected; [assumption|assumption|]. intros x y Hl'. rewrite (links_R n g x y HR) in Hl'. rewrite (labels_R n g HR).
      destruct (in_dec eqd x (labels g)); [|exfalso; apply Hl', mult_outside; [apply HR|auto]]. destruct (in_dec eqd y (labels g)); [auto|exfalso; apply Hl', mult_outside; [apply HR|auto]].
  Qed.
End Spec.

(** a call of [evolve] with a topology rule and no activity rule; recording and compression as by default *)
Record topology_only {L V A U I} (g : @args L V A U I) (F : network L V -> res (network L V)) : Prop := mkTopoOnly {
  to_rule : g_rule g = None;
  to_topo : g_topo g = Some (pure_topo (fun m _ _ => F m));
  to_comp : g_comp g = false;
  to_pnet : g_pnet g = true;
  to_past : g_past g = [] }.

Lemma flat_map_three {X Y} (f : X -> list Y) l : (forall x, length (f x) = 3) -> length (flat_map f l) = 3 * length l.
Proof. intros Hf. induction l as [|x l IH]; [reflexivity|]. cbn [flat_map length]. rewrite app_length, Hf, IH. lia. Qed.

(** C88: the run of the demo, for any cubic network, any number of timesteps and any update order *)
Theorem C88_run : forall {V A U I BA BN} `{EqD A} (W : env string V A BA BN) fuel (g : @args string V A U I) u0 n initial T k,
  topology_only g evolving_rule -> (1 <= T)%Z -> Z.to_nat T <= fuel ->
  reachable n -> nodes n <> [] -> cubic n -> same_length k n ->
  exists traj ms, evolve W fuel u0 n initial (Some T) None g = Ok (u0, traj) /\ Z.of_nat (length ms) = T /\
    Forall2 (fun s m => state_network W s = Ok (Some m)) traj ms /\ nth_error ms 0 = Some n /\
    (forall t m, nth_error ms t = Some m -> cubic m /\ length (nodes m) = length (nodes n) * 3 ^ t /\ (connected n -> connected m)) /\
    (forall t m m', nth_error ms t = Some m -> nth_error ms (S t) = Some m' -> triangulated m m').
Proof.
  intros V A U I BA BN EA W fuel g u0 n initial T k [Hr Ht Hco Hpn Hpa] HT Hfu Hre Hne Hcu Hk.
  set (P := fun t (m : network string V) => reachable m /\ cubic m /\ same_length (k + t) m /\ length (nodes m) = length (nodes n) * 3 ^ t /\ (connected n -> connected m)).
  assert (Hgiven : forall m, nodes (given g m) = nodes m /\ (forall x y, links (given g m) x y = links m x y) /\ (reachable m -> reachable (given g m))).
  { intros m. unfold given. destruct (g_copy g); [|auto]. split; [reflexivity|]. split; [reflexivity|apply keeps_copy]. }
  assert (Hstep : forall t m, P t m -> exists m', evolving_rule (given g m) = Ok m' /\ triangulated m m' /\ P (S t) m').
  { intros t m (P1 & P2 & P3 & P4 & P5). destruct (Hgiven m) as (G1 & G2 & G3).
    assert (Gp : forall x y, path m x y -> path (given g m) x y) by (induction 1; [constructor|econstructor; [rewrite G2; eassumption|assumption]]).
    destruct (C88_one_step (given g m) (k + t)) as (m' & E & Q1 & Q2 & Q3 & Q4 & Q5).
    - apply G3. assumption.
    - destruct P2 as [C1 C2 C3 C4]. constructor; [intros; rewrite !G2; auto..|]. intros v Hv. rewrite G1 in *. rewrite <- (C4 v Hv). f_equal. apply filter_ext. intros y. rewrite G2. reflexivity.
    - intros v. rewrite G1. apply P3.
    - exists m'. split; [assumption|]. split; [constructor; rewrite <- G1; [apply Q2|apply Q2|intros u w; rewrite <- G2; apply Q2]|].
      split; [assumption|]. split; [assumption|]. split; [replace (k + S t) with (S (k + t)) by lia; assumption|]. split.
      + rewrite (tri_nodes _ _ Q2), G1, flat_map_three, P4 by reflexivity. cbn [Nat.pow]. lia.
      + intros Hc. apply Q5. intros x y. rewrite G1. intros Hx Hy. apply Gp, P5; assumption. }
  assert (Hnn : forall t m, P t m -> net_nodes m <> []).
  { intros t m (_ & _ & _ & P4 & _) E. unfold nodes at 1 in P4. rewrite E in P4. cbn in P4. destruct (nodes n); [congruence|]. cbn [length] in P4. pose proof (Nat.pow_nonzero 3 t). lia. }
  destruct (topo_run W g (fun m _ _ => evolving_rule m) Hr Ht Hco Hpn Hpa fuel u0 n initial T P HT Hfu) as (traj & ms & E & Hl & Hf & H0 & HP & Hs).
  - unfold P. rewrite Nat.add_0_r. cbn [Nat.pow]. rewrite Nat.mul_1_r. auto.
  - intros t m _ Hm. destruct (Hstep t m Hm) as (m' & E & _ & Pm). exists m'. split; [auto|]. split; [exact (Hnn _ _ Pm)|assumption].
  - exists traj, ms. split; [assumption|]. split; [assumption|]. split; [|split; [assumption|split]].
    + assert (Hall : forall m, In m ms -> net_nodes m <> []) by (intros m Hm; apply In_nth_error in Hm; destruct Hm as [t Ht']; exact (Hnn t m (HP t m Ht'))).
      clear - Hf Hall. induction Hf as [|s m traj ms Hsm _ IH]; constructor.
      * rewrite Hsm. unfold shown_net. specialize (Hall m (or_introl eq_refl)). assert (Hx : nodes m <> []) by (unfold nodes; destruct (net_nodes m); [congruence|discriminate]). destruct (nodes m); [congruence|reflexivity].
      * apply IH. intros m' Hm'. apply Hall. right. assumption.
    + intros t m Hm. destruct (HP t m Hm) as (_ & P2 & _ & P4 & P5). auto.
    + intros t m m' Hm Hm'. destruct (Hstep t m (HP t m Hm)) as (m'' & E' & Htr & _). pose proof (Hs t m m' Hm Hm' []) as E''. rewrite E' in E''. injection E'' as <-. assumption.
Qed.

(** ** Examples *)

(** cubic networks can be recognised by looking at the listed nodes only *)
Definition cubicb {V} (n : network string V) : bool :=
  forallb (fun x => forallb (fun y => (links n x y =? links n y x) && (links n x y <=? 1) && (negb (eqb x y) || (links n x y =? 0))) (nodes n) &&
                    (length (filter (fun y => negb (links n y x =? 0)) (nodes n)) =? 3)) (nodes n).
Lemma cubicb_cubic {V} (n : network string V) : reachable n -> cubicb n = true -> cubic n.
Proof.
  intros Hr Hb. destruct (reachable_R n Hr) as [g HR]. unfold cubicb in Hb. rewrite forallb_forall in Hb.
  assert (Hout : forall x y, ~ In x (nodes n) \/ ~ In y (nodes n) -> links n x y = 0) by (intros x y Hx; rewrite (links_R n g x y HR); apply mult_outside; [apply HR|rewrite <- (labels_R n g HR); assumption]).
  assert (Hin : forall x y, In x (nodes n) -> In y (nodes n) -> links n x y = links n y x /\ links n x y <= 1 /\ (x = y -> links n x y = 0)).
  { intros x y Hx Hy. specialize (Hb x Hx). apply andb_true_iff in Hb. destruct Hb as [Hb _]. rewrite forallb_forall in Hb. specialize (Hb y Hy). rewrite !andb_true_iff, orb_true_iff, negb_true_iff, eqb_false, !Nat.eqb_eq, Nat.leb_le in Hb. intuition. }
  constructor.
  - intros x y. destruct (in_dec eqd x (nodes n)); [destruct (in_dec eqd y (nodes n))|]; [apply Hin; assumption|rewrite !Hout by tauto; reflexivity..].
  - intros x y. destruct (in_dec eqd x (nodes n)); [destruct (in_dec eqd y (nodes n))|]; [apply Hin; assumption|rewrite Hout by tauto; lia..].
  - intros x. destruct (in_dec eqd x (nodes n)); [apply Hin; auto|apply Hout; tauto].
  - intros v Hv. specialize (Hb v Hv). apply andb_true_iff in Hb. apply Nat.eqb_eq, Hb.
Qed.

(** the network of the demo (evolving_networks_demo.py:11-17) *)
Definition demo_k4 : network string Z := fst (run_ops (map (fun e => OpAddEdgeBidir (fst e) (snd e) []) [("1", "2"); ("1", "3"); ("2", "3"); ("1", "4"); ("2", "4"); ("3", "4")]) empty_network).

Example C88_hypotheses_met : reachable demo_k4 /\ nodes demo_k4 = ["1"; "2"; "3"; "4"] /\ cubic demo_k4 /\ same_length 1 demo_k4.
Proof.
  assert (Hr : reachable demo_k4) by (eexists; reflexivity). split; [assumption|]. split; [reflexivity|]. split; [apply cubicb_cubic; [assumption|vm_compute; reflexivity]|].
  intros v Hv. change (In v ["1"; "2"; "3"; "4"]) in Hv. destruct Hv as [<-|[<-|[<-|[<-|[]]]]]; reflexivity.
Qed.
Example C88_run_example : match evolving_rule demo_k4 with
  | Ok m => nodes m = ["1a"; "1b"; "1c"; "2a"; "2b"; "2c"; "3a"; "3b"; "3c"; "4a"; "4b"; "4c"] /\ links m "1c" "2a" = 1 /\ links m "1a" "2c" = 0
  | Err _ => False end.
Proof. vm_compute. auto. Qed.

(** the hypotheses of C88 are needed: labels that differ only by such a suffix collide, a fourth neighbour exhausts the list of
    new nodes, and a self-loop makes the rule change the dict it iterates over *)
Theorem C88_label_collision_refuted : exists n : network string Z, reachable n /\ cubic n /\ evolving_rule n = Err IndexError.
Proof.
  exists (fst (run_ops (map (fun e => OpAddEdgeBidir (V:=Z) (fst e) (snd e) []) [("1", "1a"); ("1", "3"); ("1a", "3"); ("1", "4"); ("1a", "4"); ("3", "4")]) empty_network)).
  assert (Hr : reachable (fst (run_ops (map (fun e => OpAddEdgeBidir (V:=Z) (fst e) (snd e) []) [("1", "1a"); ("1", "3"); ("1a", "3"); ("1", "4"); ("1a", "4"); ("3", "4")]) empty_network))) by (eexists; reflexivity).
  split; [exact Hr|]. split; [apply cubicb_cubic; [exact Hr|vm_compute; reflexivity]|vm_compute; reflexivity].
Qed.
Theorem C88_fourth_neighbour_refuted : exists n : network string Z, reachable n /\ evolving_rule n = Err IndexError.
Proof.
  exists (fst (run_ops (map (fun w => OpAddEdgeBidir (V:=Z) "1" w []) ["2"; "3"; "4"; "5"]) empty_network)). split; [eexists; reflexivity|vm_compute; reflexivity].
Qed.
Theorem C88_self_loop_refuted : exists n : network string Z, reachable n /\ evolving_rule n = Err (Raise "dictionary changed size during iteration").
Proof.
  exists (fst (run_ops [OpAddEdge "1" "1" []] empty_network)). split; [eexists; reflexivity|vm_compute; reflexivity].
Qed.

Print Assumptions C88_one_step.
Print Assumptions C88_run.
Print Assumptions C88_label_collision_refuted.
Print Assumptions C88_fourth_neighbour_refuted.
Print Assumptions C88_self_loop_refuted.
