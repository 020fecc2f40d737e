(** Property theorem for the accessors of NodeContext (C92). *)
From Verif Require Import Py PyFacts ListFacts Network NetworkSpec NetworkProofs NetworkProofs2 NetworkProofs3 Evolve EvolveSpec NetMult.
Open Scope string_scope.
Open Scope list_scope.
Open Scope Z_scope.

(** ** Specification *)
Section Spec.
  Context {L V : Type} `{EqD L}.
  (** the attributes of the parallel edges from [w] to [v], in the order of the listing [Network.edges] *)
  Definition parallels (n : network L V) (w v : L) : list (dict string V) := map dat (filter (fun e => eqb (src e) w && eqb (tgt e) v) (edges n)).
  (** Python's sequence subscripts: [i] counts from the front, or from the end if it is negative *)
  Definition at_index {X} (l : list X) (i : Z) (x : X) : Prop := exists k, nth_error l k = Some x /\ (i = Z.of_nat k \/ i = Z.of_nat k - Z.of_nat (length l)).
  Definition off_range {X} (l : list X) (i : Z) : Prop := i < - Z.of_nat (length l) \/ Z.of_nat (length l) <= i.
End Spec.

(** ** Proofs *)
Lemma py_nth_at {X} (l : list X) i x : at_index l i x -> py_nth l i = Some x.
Proof.
  intros (k & Ek & Hi). assert (Hk : (k < length l)%nat) by (apply nth_error_Some; congruence). unfold py_nth, py_index.
  destruct Hi as [->| ->]; repeat match goal with |- context[if ?b then _ else _] => destruct b eqn:? end; try lia; rewrite <- Ek; f_equal; lia.
Qed.
Lemma py_nth_off {X} (l : list X) i : off_range l i -> py_nth l i = None.
Proof.
  intros Hi. unfold py_nth, py_index, off_range in *. repeat match goal with |- context[if ?b then _ else _] => destruct b eqn:? end; try reflexivity; lia.
Qed.

Section Proofs.
  Context {L V A I BA BN : Type} `{EqD L}.
  Context (W : env L V A BA BN).
  Notation network := (network L V).
  Notation acts := (dict L A).
  Notation ctx := (node_ctx L V A I).

  Lemma filter_flat_map {X Y} (f : Y -> bool) (g : X -> list Y) l : filter f (flat_map g l) = flat_map (fun x => filter f (g x)) l.
  Proof. induction l as [|x l IH]; [reflexivity|]. cbn [flat_map]. rewrite filter_app, IH. reflexivity. Qed.
  Lemma flat_map_nil_in {X Y} (g : X -> list Y) l : (forall x, In x l -> g x = []) -> flat_map g l = [].
  Proof. induction l as [|x l IH]; intros Hg; [reflexivity|]. cbn [flat_map]. rewrite (Hg x), IH; auto using in_eq, in_cons. Qed.
  Lemma flat_map_at {K Y X} `{EqD K} (d : dict K X) (g : K * X -> list Y) k : NoDup (dkeys d) -> (forall p, In p d -> fst p <> k -> g p = []) ->
    flat_map g d = match dget d k with Some x => g (k, x) | None => [] end.
  Proof.
    induction d as [|[k' x] d IH]; intros Hnd Hg; [reflexivity|]. cbn [flat_map dget]. unfold dkeys in Hnd. cbn [map fst] in Hnd. inversion Hnd as [|? ? Hni Hnd']; subst.
    destruct (eqd k k') as [->|Hne].
    - rewrite flat_map_nil_in; [apply app_nil_r|]. intros p Hp. apply Hg; [right; assumption|]. intros E. apply Hni. rewrite <- E. apply in_map. assumption.
    - rewrite (Hg (k', x)) by (auto using in_eq; cbn; congruence). cbn [app]. apply IH; [assumption|]. intros p Hp. apply Hg. right. assumption.
  Qed.
  Lemma filter_none {X} (f : X -> bool) l : (forall x, In x l -> f x = false) -> filter f l = [].
  Proof. induction l as [|x l IH]; intros Hf; [reflexivity|]. cbn [filter]. rewrite (Hf x) by (left; reflexivity). apply IH. intros; apply Hf; right; assumption. Qed.
  Lemma filter_all {X} (f : X -> bool) l : (forall x, In x l -> f x = true) -> filter f l = l.
  Proof. induction l as [|x l IH]; intros Hf; [reflexivity|]. cbn [filter]. rewrite (Hf x) by (left; reflexivity). f_equal. apply IH. intros; apply Hf; right; assumption. Qed.

  Lemma parallels_conn (n : network) w v conn : reachable n -> in_edges n v = Ok conn -> parallels n w v = match dget conn w with Some es => es | None => [] end.
  Proof.
    intros Hr E. destruct (reachable_R n Hr) as [g HR]. assert (Hnd : NoDup (dkeys (net_nodes n))) by exact (R_NoDup _ _ HR).
    assert (Hnc : NoDup (dkeys conn)).
    { rewrite (in_edges_R n g v HR) in E. destruct (is_nodeb g v); [|discriminate]. injection E as <-. unfold dkeys. rewrite map_map. cbn [fst]. rewrite map_id. apply NoDup_in_neighbours. }
    unfold in_edges in E. destruct (dget (net_nodes n) v) as [nd|] eqn:Ev; [|discriminate]. injection E as <-.
    unfold parallels, edges. rewrite filter_flat_map, (flat_map_at _ _ v Hnd).
    2: { intros p _ Hp. rewrite filter_flat_map. apply flat_map_nil_in. intros ies _. apply filter_none. intros e He. apply in_map_iff in He. destruct He as (k & <- & _). unfold tgt. cbn [fst snd]. apply andb_false_iff. right. apply eqb_false. exact Hp. }
    rewrite Ev. cbn [snd fst]. rewrite filter_flat_map, (flat_map_at _ _ w Hnc).
    2: { intros p _ Hp. apply filter_none. intros e He. apply in_map_iff in He. destruct He as (k & <- & _). unfold src. cbn [fst snd]. apply andb_false_iff. left. apply eqb_false. exact Hp. }
    destruct (dget (n_inc nd) w) as [es|]; [|reflexivity]. cbn [fst snd]. rewrite filter_all.
    - rewrite map_map. unfold dat. cbn [snd]. apply map_id.
    - intros e He. apply in_map_iff in He. destruct He as (k & <- & _). unfold src, tgt. cbn [fst snd]. rewrite !eqb_refl. reflexivity.
  Qed.

  (** edge_data reads the attribute of the [i]-th of the parallel edges from [w] to the node, in the network in force *)
  Theorem C92_edge_data : forall (n : network) S t past inp v (x : ctx) w attr i, reachable n -> ctx_for W n S t past inp v x ->
    (parallels n w v = [] -> edge_data x w attr i = Err KeyError) /\
    (parallels n w v <> [] -> off_range (parallels n w v) i -> edge_data x w attr i = Err IndexError) /\
    (forall e, at_index (parallels n w v) i e -> edge_data x w attr i = match dget e attr with Some a => Ok a | None => Err KeyError end).
  Proof.
    intros n S t past inp v x w attr i Hr Hx. assert (Hc := cf_conn _ _ _ _ _ _ _ _ Hx). rewrite (parallels_conn n w v _ Hr Hc). unfold edge_data.
    assert (Hne : dget (x_conn x) w <> Some []).
    { destruct (reachable_R n Hr) as [g HR]. rewrite (in_edges_R n g v HR) in Hc. destruct (is_nodeb g v); [|discriminate]. injection Hc as <-. intros E. apply dget_some_in, in_map_iff in E. destruct E as (u & E & Hu).
      injection E as -> E. apply in_neighbours_mult, mult_edge in Hu. contradiction. }
    destruct (dget (x_conn x) w) as [es|]; cbn [of_opt rbind].
    - split; [congruence|]. split.
      + intros _ Ho. rewrite (py_nth_off _ _ Ho). reflexivity.
      + intros e He. rewrite (py_nth_at _ _ _ He). cbn [of_opt rbind]. destruct (dget e attr); reflexivity.
    - split; [reflexivity|]. split; [congruence|]. intros e (k & Ek & _). destruct k; discriminate.
  Qed.

  (** activity_of reads the activities before the step; so do current_activity and neighbourhood_activities *)
  Theorem C92_activity_of : forall (n : network) S t past inp v (x : ctx), ctx_for W n S t past inp v x ->
    (forall w a, dget S w = Some a -> activity_of x w = Ok a) /\ (forall w, ~ In w (dkeys S) -> activity_of x w = Err KeyError) /\
    activity_of x v = Ok (x_cur x) /\ x_label x = v /\ Forall2 (fun w a => activity_of x w = Ok a) (x_nbrs x) (x_nacts x).
  Proof.
    intros n S t past inp v x Hx. unfold activity_of. rewrite (cf_acts _ _ _ _ _ _ _ _ Hx). split; [intros w a ->; reflexivity|]. split; [intros w Hw; apply dget_none in Hw; rewrite Hw; reflexivity|].
    split; [rewrite (cf_cur _ _ _ _ _ _ _ _ Hx); reflexivity|]. split; [exact (cf_label _ _ _ _ _ _ _ _ Hx)|].
    assert (Hf := cf_nacts _ _ _ _ _ _ _ _ Hx). induction Hf as [|w a ws as_ Hw _ IH]; constructor; [rewrite Hw; reflexivity|exact IH].
  Qed.

  (** past_activity_of reads the [i]-th state of the window of past states; without past conditions it raises *)
  Theorem C92_past_activity_of : forall (x : ctx) w i,
    (x_past x = None -> past_activity_of x w i = Err TypeError) /\
    forall l, x_past x = Some l -> (off_range l i -> past_activity_of x w i = Err IndexError) /\
      (at_index l i None -> past_activity_of x w i = Err TypeError) /\
      forall d, at_index l i (Some d) -> past_activity_of x w i = match dget d w with Some a => Ok a | None => Err KeyError end.
  Proof.
    intros x w i. unfold past_activity_of. split; [intros ->; reflexivity|]. intros l ->. cbn [of_opt rbind]. split; [intros Ho; rewrite (py_nth_off _ _ Ho); reflexivity|].
    split; [intros Ha; rewrite (py_nth_at _ _ _ Ha); reflexivity|]. intros d Ha. rewrite (py_nth_at _ _ _ Ha). cbn [of_opt rbind]. destruct (dget d w); reflexivity.
  Qed.
End Proofs.

(** ** Examples *)
Definition Wx : env Z Z Z unit unit := mkEnv Z.of_nat Some (fun a => a) (fun _ => Err Unmodelled) (fun _ => Err Unmodelled) (fun _ => Err Unmodelled) (fun _ => Err Unmodelled).
Definition net2 : network Z Z := fst (run_ops [OpAddEdge 0 1 [("w", 5)]; OpAddEdge 2 1 [("w", 7)]; OpAddEdge 0 1 [("w", 6)]; OpAddEdge 1 1 []] empty_network).
Definition ctx2 : node_ctx Z Z Z unit := mkCtx 1 3 [(0, 10); (1, 20); (2, 30)] [0; 2; 1] [10; 30; 20] [(0, [[("w", 5)]; [("w", 6)]]); (2, [[("w", 7)]]); (1, [[]])] 20 (Some [Some [(0, 1)]; None; Some [(0, 2)]]) None.
Example C92_nonvacuous : reachable net2 /\ ctx_for Wx net2 [(0, 10); (1, 20); (2, 30)] 3 (Some [Some [(0, 1)]; None; Some [(0, 2)]]) (InStr "__timestep__") 1 ctx2 /\
  parallels net2 0 1 = [[("w", 5)]; [("w", 6)]] /\ edge_data ctx2 0 "w" 1 = Ok 6 /\ edge_data ctx2 0 "w" (-2) = Ok 5 /\ edge_data ctx2 0 "w" 2 = Err IndexError /\ edge_data ctx2 3 "w" 0 = Err KeyError /\ edge_data ctx2 1 "w" 0 = Err KeyError /\
  past_activity_of ctx2 0 (-1) = Ok 2 /\ past_activity_of ctx2 0 0 = Ok 1 /\ past_activity_of ctx2 0 1 = Err TypeError /\ past_activity_of ctx2 5 0 = Err KeyError /\ activity_of ctx2 2 = Ok 30.
Proof.
  split; [eexists; reflexivity|]. split; [|repeat split].
  split; try reflexivity.
  - exists (x_conn ctx2). split; reflexivity.
  - repeat constructor.
Qed.

Print Assumptions C92_edge_data.
Print Assumptions C92_activity_of.
Print Assumptions C92_past_activity_of.
