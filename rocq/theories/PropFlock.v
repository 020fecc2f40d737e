(** Property theorems for demos/flocking (C109): a hierarchy of boids, limits of speed, and a boid that no wall turns round. *)
From Verif Require Import Py PyFacts ListFacts Network NetworkSpec NetworkProofs NetworkProofs2 NetworkProofs3 NetMult Evolve EvolveSpec EvolveProofs EvolveStatic FungalProofs2 FlockSpec Flock FlockProofs.
Open Scope string_scope.
Open Scope list_scope.
Open Scope Z_scope.

Section Generic.
  Context {A V : Type} `{EqD A} (visible : A -> A -> bool) (move : A -> list A -> A).
  Notation boid := (boid visible move).
  Notation watched := (watched visible move).

  Lemma watched_iff st0 k v i : 0 <= v -> In i (watched st0 (S k) v) <-> 0 <= i < v /\ visible (boid st0 k i) (boid st0 k v) = true.
  Proof.
    intros Hv. rewrite watched_S. unfold watch. rewrite in_app_iff, !filter_In, in_zrange. split.
    - intros [[Hi Hs]|[Hi Hs]]; [apply watched_range in Hi; auto|apply andb_prop in Hs; tauto].
    - intros [Hi Hs]. destruct (in_dec eqd i (watched st0 k v)) as [Hin|Hin]; [left; auto|right]. split; [assumption|]. rewrite Hs. cbn [andb].
      destruct (existsb _ _) eqn:E; [|reflexivity]. apply existsb_exists in E. destruct E as (y & Hy & E). apply Z.eqb_eq in E. subst y. contradiction.
  Qed.

  (** the boids up to [j] do not depend on the others *)
  Lemma boid_ext st0 st1 j : (forall i, 0 <= i <= j -> st0 i = st1 i) -> forall k i, 0 <= i <= j -> boid st0 k i = boid st1 k i /\ watched st0 k i = watched st1 k i.
  Proof.
    intros Hst. induction k as [|k IH]; intros i Hi; [split; [apply Hst; assumption|reflexivity]|].
    assert (Hw : watched st0 (S k) i = watched st1 (S k) i).
    { rewrite !watched_S. unfold watch. destruct (IH i Hi) as [Ei Ew]. rewrite Ew, Ei. f_equal; apply filter_ext_in; intros x Hx.
      - apply watched_range in Hx. destruct (IH x) as [-> _]; [lia|reflexivity].
      - apply in_zrange in Hx. destruct (IH x) as [-> _]; [lia|reflexivity]. }
    split; [|assumption]. rewrite !boid_S. rewrite Hw. destruct (IH i Hi) as [-> _]. f_equal. apply map_ext_in. intros x Hx. apply watched_range in Hx. apply IH. lia.
  Qed.
End Generic.

(** C109: the run of the demo. After [k] steps the boids are those of the specification; the neighbours of a boid are, in order, the boids it watches;
    from [i] to [j > i] there are as many parallel edges as there have been steps in a row at which they saw each other, and no other edges *)
Theorem C109_flock : forall {A V U I BA BN : Type} `{EqD A} (W : env Z V A BA BN) (visible : A -> A -> bool) (fly : A -> list A -> res A) (move : A -> list A -> A)
    fuel (u0 : U) (boids : list A) T (st0 : Z -> A),
  boids <> [] -> 1 <= T -> (Z.to_nat T <= fuel)%nat -> (forall i a, nth_error boids i = Some a -> st0 (Z.of_nat i) = a) ->
  let n := Z.of_nat (length boids) in
  let boid := boid visible move st0 in let watched := watched visible move st0 in
  (forall k v, Z.of_nat k + 1 < T -> 0 <= v < n -> let nbrs := map (boid k) (watched (S k) v) in fly (boid k v) nbrs = Ok (move (boid k v) nbrs)) ->
  exists traj hs, flocking_demo (I:=I) visible fly W fuel u0 boids T = Ok (u0, traj) /\ Z.of_nat (length hs) = T /\
    Forall2 (fun s Sm => activities W s = Ok (shown_acts (fst Sm)) /\ state_network W s = Ok (shown_net (snd Sm))) traj hs /\
    forall k S m, nth_error hs k = Some (S, m) ->
      map fst S = zrange 0 n /\ nodes m = zrange 0 n /\
      (forall v, 0 <= v < n -> dget S v = Some (boid k v)) /\
      (forall v, 0 <= v < n -> exists inc, in_edges m v = Ok inc /\ map fst inc = watched k v) /\
      (forall i j, links m i j = if (0 <=? i) && (i <? j) && (j <? n) then streak visible move st0 i j k else O).
Proof.
  intros A V U I BA BN HA W visible fly move fuel u0 boids T st0 Hne HT Hfuel Hst n boid' watched' Hfly. unfold flocking_demo. fold n.
  set (c := CDict (map (fun iv : nat * A => (Z.of_nat (fst iv), snd iv)) (enumerate boids))).
  assert (Hn : 1 <= n) by (unfold n; destruct boids; [congruence|cbn [length]; lia]).
  assert (Hkeys : map fst (to_dict W c) = zrange 0 n).
  { unfold c, n. cbn [to_dict]. rewrite map_map. cbn [fst]. unfold enumerate, zrange. rewrite Z.sub_0_r, Nat2Z.id.
    assert (Hg : forall (l : list A) s, map (fun iv : nat * A => Z.of_nat (fst iv)) (combine (seq s (length l)) l) = map Z.of_nat (seq s (length l))) by (induction l as [|x l IH]; intros s; [reflexivity|]; cbn [length seq combine map fst]; rewrite IH; reflexivity).
    rewrite Hg. apply map_ext. intros i. lia. }
  assert (Hvals : forall v, 0 <= v < n -> dget (to_dict W c) v = Some (st0 v)).
  { intros v Hv. unfold c. cbn [to_dict]. rewrite (dget_enumerate (fun i => Z.of_nat i) boids v) by (reflexivity || lia).
    destruct (nth_error boids (Z.to_nat v)) as [a|] eqn:E; [|apply nth_error_None in E; unfold n in Hv; lia]. apply Hst in E. rewrite Z2Nat.id in E by lia. congruence. }
  destruct (flock_run (I:=I) visible W fly move fuel u0 n c T st0 HT Hfuel Hn Hkeys Hvals Hfly) as (traj & hs & E & Hl & Hf & _ & Hat).
  exists traj, hs. split; [exact E|]. split; [assumption|]. split; [assumption|]. intros k S m Ek. destruct (Hat k S m Ek) as (HK & HV & g & HR & Hrot & Hlab & Hnb & Hmu).
  split; [assumption|]. split; [rewrite (labels_R _ _ HR); assumption|]. split; [assumption|]. split.
  - intros v Hv. rewrite (in_edges_R _ _ v HR). assert (Hb : is_nodeb g v = true) by (apply is_nodeb_true; change (In v (labels g)); rewrite Hlab; apply in_zrange; assumption). rewrite Hb. eexists. split; [reflexivity|]. rewrite map_map. cbn [fst]. rewrite map_id. apply Hnb. assumption.
  - intros i j. rewrite (links_R _ _ _ _ HR). apply Hmu.
Qed.
Print Assumptions C109_flock.

(** C109: whom a boid watches: after the first step exactly the boids with smaller numbers that it saw before the step *)
Theorem C109_watched : forall {A : Type} `{EqD A} (visible : A -> A -> bool) (move : A -> list A -> A) st0 k v i, 0 <= v ->
  In i (watched visible move st0 (S k) v) <-> 0 <= i < v /\ visible (boid visible move st0 k i) (boid visible move st0 k v) = true.
Proof. intros A HA visible move st0 k v i. apply watched_iff. Qed.
Print Assumptions C109_watched.

(** C109: the boids are a hierarchy: two runs whose first [j + 1] boids agree (and that may differ in the other boids and in their number) agree on them at every step *)
Theorem C109_hierarchy : forall {A V U I BA BN : Type} `{EqD A} (W : env Z V A BA BN) (visible : A -> A -> bool) (fly : A -> list A -> res A) (move : A -> list A -> A)
    fuel (u0 : U) (boids boids' common : list A) T,
  common <> [] -> 1 <= T -> (Z.to_nat T <= fuel)%nat -> (exists r, boids = common ++ r) -> (exists r, boids' = common ++ r) ->
  (forall a nbrs, fly a nbrs = Ok (move a nbrs)) ->
  exists traj traj' hs hs', flocking_demo (I:=I) visible fly W fuel u0 boids T = Ok (u0, traj) /\ flocking_demo (I:=I) visible fly W fuel u0 boids' T = Ok (u0, traj') /\
    Forall2 (fun s Sm => activities W s = Ok (shown_acts (fst Sm)) /\ state_network W s = Ok (shown_net (snd Sm))) traj hs /\
    Forall2 (fun s Sm => activities W s = Ok (shown_acts (fst Sm)) /\ state_network W s = Ok (shown_net (snd Sm))) traj' hs' /\
    Z.of_nat (length hs) = T /\ Z.of_nat (length hs') = T /\
    forall k S m S' m', nth_error hs k = Some (S, m) -> nth_error hs' k = Some (S', m') ->
      forall v, 0 <= v < Z.of_nat (length common) -> (exists a, dget S v = Some a /\ dget S' v = Some a) /\ (forall i, links m i v = links m' i v).
Proof.
  intros A V U I BA BN HA W visible fly move fuel u0 boids boids' common T Hne HT Hfuel [r ->] [r' ->] Hfly.
  destruct common as [|d cs]; [congruence|]. set (cm := d :: cs) in *.
  set (s0 := fun v => nth (Z.to_nat v) (cm ++ r) d). set (s1 := fun v => nth (Z.to_nat v) (cm ++ r') d).
  destruct (C109_flock (I:=I) W visible fly move fuel u0 (cm ++ r) T s0 ltac:(discriminate) HT Hfuel) as (t & hs & E & Hl & Hf & Hat); [intros i a Ei; unfold s0; rewrite Nat2Z.id; apply nth_error_nth; assumption|intros; apply Hfly|].
  destruct (C109_flock (I:=I) W visible fly move fuel u0 (cm ++ r') T s1 ltac:(discriminate) HT Hfuel) as (t' & hs' & E' & Hl' & Hf' & Hat'); [intros i a Ei; unfold s1; rewrite Nat2Z.id; apply nth_error_nth; assumption|intros; apply Hfly|].
  exists t, t', hs, hs'. repeat (split; [assumption|]). intros k S m S' m' Ek Ek' v Hv.
  assert (Hs : forall i, 0 <= i <= v -> s0 i = s1 i) by (intros i Hi; unfold s0, s1; rewrite !app_nth1 by lia; reflexivity).
  destruct (Hat k S m Ek) as (_ & _ & HV & _ & HL). destruct (Hat' k S' m' Ek') as (_ & _ & HV' & _ & HL').
  assert (Hlt : v < Z.of_nat (length (cm ++ r)) /\ v < Z.of_nat (length (cm ++ r'))) by (rewrite !app_length; lia).
  split.
  - exists (boid visible move s0 k v). rewrite HV, HV' by lia. split; [reflexivity|]. destruct (boid_ext visible move s0 s1 v Hs k v ltac:(lia)) as [-> _]. reflexivity.
  - intros i. rewrite HL, HL'. destruct Hlt as [H1 H2]. apply Z.ltb_lt in H1, H2. rewrite H1, H2, !andb_true_r. destruct ((0 <=? i) && (i <? v)) eqn:Ei; [|reflexivity].
    apply andb_prop in Ei. destruct Ei as [Ei1 Ei2]. apply Z.leb_le in Ei1. apply Z.ltb_lt in Ei2. clear - Hs Ei1 Ei2. induction k as [|k IH]; [reflexivity|]. cbn [streak].
    destruct (boid_ext visible move s0 s1 v Hs k v ltac:(lia)) as [-> _]. destruct (boid_ext visible move s0 s1 v Hs k i ltac:(lia)) as [-> _]. rewrite IH. reflexivity.
Qed.
Print Assumptions C109_hierarchy.

(** boids on a line of integers that see up to distance 1; a boid that watches nobody walks on up to 3, the others jump over the boid that they have watched longest *)
Definition near (a b : Z) : bool := Z.abs (a - b) <=? 1.
Definition follow (a : Z) (nbrs : list Z) : Z := match nbrs with [] => Z.min 3 (a + 1) | b :: _ => 2 * b - a end.
Definition toy_env : env Z Z Z unit unit := mkEnv Z.of_nat Some (fun a => a) (fun _ => Err Unmodelled) (fun _ => Err Unmodelled) (fun _ => Err Unmodelled) (fun _ => Err Unmodelled).
Definition toy (boids : list Z) (T : Z) := flocking_demo (U:=unit) (I:=unit) near (fun a l => Ok (follow a l)) toy_env 10 tt boids T.

Definition shown (r : res (unit * list (state Z Z Z unit unit))) : list (list Z * list nat * list (list Z)) :=
  match r with
  | Ok (_, traj) => map (fun s => match activities toy_env s, state_network toy_env s with
                                  | Ok (Some d), Ok (Some m) => (map snd d, map (fun ij => links m (fst ij) (snd ij)) (flock_pairs 3), map (fun v => match in_edges m v with Ok inc => map fst inc | Err _ => [] end) (nodes m))
                                  | _, _ => ([], [], []) end) traj
  | Err _ => []
  end.
(** three boids: edges pile up, go and come back; boid 0 watches nobody *)
Example C109_flock_ex : shown (toy [0; 1; 2] 9) =
  [([0; 1; 2], [0; 0; 0]%nat, [[]; []; []]); ([1; -1; 0], [1; 0; 1]%nat, [[]; [0]; [1]]); ([2; 0; -2], [0; 1; 2]%nat, [[]; []; [1; 0]]);
   ([3; 1; -1], [0; 0; 0]%nat, [[]; []; []]); ([3; 2; 0], [0; 0; 0]%nat, [[]; []; []]); ([3; 4; 1], [1; 0; 0]%nat, [[]; [0]; []]);
   ([3; 2; 2], [2; 0; 0]%nat, [[]; [0]; []]); ([3; 4; 4], [3; 1; 1]%nat, [[]; [0]; [0; 1]]); ([3; 2; 2], [4; 2; 2]%nat, [[]; [0]; [0; 1]])].
Proof. vm_compute. reflexivity. Qed.
Example C109_flock_hyps : [0; 1; 2] <> [] /\ forall i a, nth_error [0; 1; 2] i = Some a -> (fun v => v) (Z.of_nat i) = a.
Proof. split; [discriminate|]. intros [|[|[|[|i]]]] a E; try discriminate; injection E as <-; reflexivity. Qed.
(** the first two boids fly as if the others were not there *)
Example C109_hierarchy_ex : map (fun r => firstn 2 (fst (fst r))) (shown (toy [0; 1; 2] 9)) = map (fun r => fst (fst r)) (shown (toy [0; 1] 9)).
Proof. vm_compute. reflexivity. Qed.

(** C109: the comment of the demo says that boids in visual range are visible to each other, but only the later one watches the earlier one *)
Theorem C109_mutual_refuted : exists boids T d m,
  match toy boids T with Ok (_, traj) => match nth_error traj 1 with Some s => activities toy_env s = Ok (Some d) /\ state_network toy_env s = Ok (Some m) | None => False end | Err _ => False end /\
  (exists a b, nth_error boids 0 = Some a /\ nth_error boids 1 = Some b /\ near a b = true /\ near b a = true) /\ links m 0 1 = 1%nat /\ links m 1 0 = 0%nat /\ in_edges m 0 = Ok [].
Proof.
  exists [0; 1], 2. remember (toy [0; 1] 2) as r eqn:E. vm_compute in E. subst r. eexists _, _. split; [split; reflexivity|]. vm_compute.
  split; [exists 0, 1; repeat split|repeat split].
Qed.
Print Assumptions C109_mutual_refuted.
