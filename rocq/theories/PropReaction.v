(** Property theorems for demos/reaction_diffusion (C99). *)
From Coq Require Import QArith Qpower Lqa Permutation.
From Verif Require Import Py PyFacts ListFacts Network Topology TopologySpec TopologyProofs Evolve EvolveSpec EvolveProofs EvolveStatic CaSpec CaRun CaNets PropCa Fungal FungalSpec FungalProofs2 Continuous ContinuousProofs PropContinuous Maps FieldRun.
Open Scope string_scope.
Open Scope list_scope.
Open Scope Z_scope.

(** ** Specification: a grid of [rows] times [cols] cells, row by row, whose opposite sides are joined *)
Section Spec.
  Variables rows cols : Z.
  Definition up (v : Z) : Z := (v / cols - 1) mod rows * cols + v mod cols.
  Definition down (v : Z) : Z := (v / cols + 1) mod rows * cols + v mod cols.
  Definition leftward (v : Z) : Z := v / cols * cols + (v mod cols - 1) mod cols.
  Definition rightward (v : Z) : Z := v / cols * cols + (v mod cols + 1) mod cols.
  (** the discrete Laplacian of a field *)
  Definition laplacian (s : Z -> Q) (v : Z) : Q := (s (up v) + s (down v) + s (leftward v) + s (rightward v) - 4 * s v)%Q.
End Spec.
(** the two concentrations at a cell *)
Definition conc_u (S : dict Z (Q * Q)) (v : Z) : Q := match dget S v with Some a => fst a | None => 0 end.
Definition conc_v (S : dict Z (Q * Q)) (v : Z) : Q := match dget S v with Some a => snd a | None => 0 end.
(** every cell has a value *)
Definition filled (m : Z) (S : dict Z (Q * Q)) : Prop := forall v, 0 <= v < m -> dget S v = Some (conc_u S v, conc_v S v).

(** ** The four neighbours *)
Lemma near_mod n a i j : 3 <= n -> -1 <= i <= 1 -> -1 <= j <= 1 -> (a + i) mod n = (a + j) mod n -> i = j.
Proof.
  intros Hn Hi Hj E. pose proof (Z.div_mod (a + i) n ltac:(lia)) as E1. pose proof (Z.div_mod (a + j) n ltac:(lia)) as E2. rewrite E in E1.
  assert (Hd : i - j = n * ((a + i) / n - (a + j) / n)) by lia. set (q := (a + i) / n - (a + j) / n) in *.
  assert (q = 0) by nia. nia.
Qed.

Section Grid.
  Variables rows cols : Z.
  Hypothesis Hr : 3 <= rows.
  Hypothesis Hc : 3 <= cols.
  Notation shift := (torus_shift rows cols).

  Lemma shift_0 v : 0 <= v < rows * cols -> shift 0 0 v = v.
  Proof.
    intros Hv. unfold torus_shift. rewrite !Z.add_0_r, Zmod_mod. rewrite (Z.mod_small (v / cols)); [pose proof (Z.div_mod v cols); lia|].
    split; [apply Z.div_pos; lia|apply Z.div_lt_upper_bound; lia].
  Qed.
  Lemma up_shift v : up rows cols v = shift (-1) 0 v.
  Proof. unfold up, torus_shift. rewrite Z.add_0_r, Zmod_mod. reflexivity. Qed.
  Lemma down_shift v : down rows cols v = shift 1 0 v.
  Proof. unfold down, torus_shift. rewrite Z.add_0_r, Zmod_mod. reflexivity. Qed.
  Lemma row_small v : 0 <= v < rows * cols -> (v / cols + 0) mod rows = v / cols.
  Proof. intros Hv. rewrite Z.add_0_r. apply Z.mod_small. split; [apply Z.div_pos; lia|apply Z.div_lt_upper_bound; lia]. Qed.
  Lemma left_shift v : 0 <= v < rows * cols -> leftward cols v = shift 0 (-1) v.
  Proof. intros Hv. unfold leftward, torus_shift. rewrite row_small by assumption. reflexivity. Qed.
  Lemma right_shift v : 0 <= v < rows * cols -> rightward cols v = shift 0 1 v.
  Proof. intros Hv. unfold rightward, torus_shift. rewrite row_small by assumption. reflexivity. Qed.

  Lemma shift_distinct i j i' j' v : -1 <= i <= 1 -> -1 <= j <= 1 -> -1 <= i' <= 1 -> -1 <= j' <= 1 -> shift i j v = shift i' j' v -> i = i' /\ j = j'.
  Proof.
    intros Hi Hj Hi' Hj' E. unfold torus_shift in E. apply cell_inj in E; [|apply Z.mod_pos_bound; lia|apply Z.mod_pos_bound; lia]. destruct E as [E1 E2].
    split; [apply (near_mod rows (v / cols)); assumption|apply (near_mod cols (v mod cols)); assumption].
  Qed.

  (** the labels of the neighbourhood other than the node itself *)
  Lemma four_neighbours f : (forall v, 0 <= v < rows * cols -> NoDup (f v)) -> (forall v w, 0 <= v < rows * cols -> In w (f v) -> 0 <= w < rows * cols) ->
    (forall a b c d, 0 <= a < rows -> 0 <= b < cols -> 0 <= c < rows -> 0 <= d < cols -> (In (c * cols + d) (f (a * cols + b)) <-> torus_step rows cols (von_neumann_offset 1) a b c d)) ->
    forall v, 0 <= v < rows * cols -> Permutation (filter (fun w => negb (eqb w v)) (f v)) [up rows cols v; down rows cols v; leftward cols v; rightward cols v].
  Proof.
    intros Hnd Hub Hin v Hv. rewrite up_shift, down_shift, left_shift, right_shift by assumption. apply NoDup_Permutation.
    - apply NoDup_filter, Hnd. assumption.
    - assert (Hne : forall i j i' j', -1 <= i <= 1 -> -1 <= j <= 1 -> -1 <= i' <= 1 -> -1 <= j' <= 1 -> (i <> i' \/ j <> j') -> shift i j v <> shift i' j' v).
      { intros i j i' j' H1 H2 H3 H4 Hd E. apply shift_distinct in E; [|assumption..]. lia. }
      repeat constructor; cbn [In]; intros Hx; repeat (destruct Hx as [Hx|Hx]); try contradiction; (symmetry in Hx; revert Hx; apply Hne; lia).
    - intros w. rewrite filter_In, negb_true_iff.
      destruct (cell_surj rows cols v ltac:(lia) Hv) as (Ev & Ha & Hb). unfold cell in Ev. set (a := v / cols) in *. set (b := v mod cols) in *.
      assert (Hsh : forall i j, shift i j v = (a + i) mod rows * cols + (b + j) mod cols) by reflexivity.
      split.
      + intros [Hw Hne]. apply eqb_false in Hne. assert (Hwr := Hub v w Hv Hw). destruct (cell_surj rows cols w ltac:(lia) Hwr) as (Ew & Hwa & Hwb). unfold cell in Ew.
        rewrite Ev in Hw. rewrite Ew in Hw. apply Hin in Hw; [|assumption..]. destruct Hw as (dx & dy & Hoff & E1 & E2). unfold von_neumann_offset in Hoff.
        rewrite E1, E2 in Ew. rewrite <- Hsh in Ew. rewrite Ew in Hne |- *.
        assert (Hcase : dx = 0 /\ dy = 0 \/ dx = -1 /\ dy = 0 \/ dx = 1 /\ dy = 0 \/ dx = 0 /\ dy = -1 \/ dx = 0 /\ dy = 1) by lia.
        destruct Hcase as [[-> ->]|[[-> ->]|[[-> ->]|[[-> ->]|[-> ->]]]]]; cbn [In]; try tauto. exfalso. apply Hne. apply shift_0. assumption.
      + intros Hw. assert (Hoff : exists i j, w = shift i j v /\ von_neumann_offset 1 i j /\ (i <> 0 \/ j <> 0)).
        { cbn [In] in Hw. unfold von_neumann_offset. destruct Hw as [<-|[<-|[<-|[<-|[]]]]]; [exists (-1), 0|exists 1, 0|exists 0, (-1)|exists 0, 1]; (split; [reflexivity|split; [cbn; lia|lia]]). }
        destruct Hoff as (i & j & -> & Hoff & Hne). split.
        * rewrite Hsh. rewrite Ev at 1. apply Hin; try assumption; try (apply Z.mod_pos_bound; lia). exists i, j. split; [assumption|]. split; reflexivity.
        * apply eqb_false. intros E. rewrite <- (shift_0 v Hv) in E at 2. unfold von_neumann_offset in Hoff. apply shift_distinct in E; lia.
  Qed.
End Grid.

Lemma fold_Qplus l : forall acc, (fold_left Qplus l acc == acc + Qsum l)%Q.
Proof. induction l as [|a l IH]; intros acc; cbn [fold_left Qsum fold_right]; [ring|]. rewrite IH. unfold Qsum. ring. Qed.

(** the comprehension picks the activities of the labels other than the node's *)
Lemma others_ok {V I} (x : node_ctx Z V (Q * Q) I) s : x_nacts x = map s (x_nbrs x) -> others x = Ok (map s (filter (fun w => negb (eqb w (x_label x))) (x_nbrs x))).
Proof.
  intros E. unfold others, enumerate.
  assert (H : forall pre l, x_nbrs x = pre ++ l -> rmap (fun i => of_opt IndexError (nth_error (x_nacts x) i)) (map fst (filter (fun iv => negb (eqb (snd iv) (x_label x))) (combine (seq (length pre) (length l)) l))) =
     Ok (map s (filter (fun w => negb (eqb w (x_label x))) l))).
  { intros pre l. revert pre. induction l as [|w l IH]; intros pre El; [reflexivity|]. cbn [length seq combine filter snd].
    specialize (IH (pre ++ [w])). rewrite <- app_assoc in IH. specialize (IH El). rewrite app_length, Nat.add_1_r in IH.
    destruct (negb (eqb w (x_label x))); [|exact IH]. cbn [map rmap fst].
    assert (En : nth_error (x_nacts x) (length pre) = Some (s w)) by (rewrite E, El, map_app, nth_error_app2, map_length, Nat.sub_diag by (rewrite map_length; lia); reflexivity).
    rewrite En. cbn [of_opt rbind]. rewrite IH. reflexivity. }
  apply (H []). reflexivity.
Qed.

(** sums over the grid are not changed by moving the field *)
Lemma around_grid rows cols i j f : 0 < rows -> 0 < cols -> (around (rows * cols) (fun v => f (torus_shift rows cols i j v)) == around (rows * cols) f)%Q.
Proof.
  intros Hr Hc. unfold around. rewrite <- (map_map (torus_shift rows cols i j) f). apply Qsum_perm, Permutation_map. apply NoDup_Permutation_bis.
  - apply NoDup_map_on; [|apply NoDup_zrange]. intros x y Hx Hy. apply in_zrange in Hx, Hy. apply torus_shift_inj; assumption.
  - rewrite map_length. lia.
  - intros x Hx. apply in_map_iff in Hx. destruct Hx as (v & <- & _). apply in_zrange. apply torus_shift_range; assumption.
Qed.
Lemma around_laplacian rows cols s : 3 <= rows -> 3 <= cols -> (around (rows * cols) (laplacian rows cols s) == 0)%Q.
Proof.
  intros Hr Hc.
  rewrite (around_ext _ _ (fun v => s (torus_shift rows cols (-1) 0 v) + (s (torus_shift rows cols 1 0 v) + (s (torus_shift rows cols 0 (-1) v) + (s (torus_shift rows cols 0 1 v) + (-4) * s v))))%Q).
  - rewrite !around_add, around_scale, !around_grid by lia. ring.
  - intros v Hv. unfold laplacian. rewrite up_shift, down_shift, (left_shift rows cols), (right_shift rows cols) by assumption. ring.
Qed.

Section Theorems.
  Context {U I BA BN : Type}.
  Notation env := (env Z Z (Q * Q) BA BN).
  Notation ctx := (node_ctx Z Z (Q * Q) I).
  Notation args := (@args Z Z (Q * Q) U I).

  (** C99: one timestep at one cell *)
  Theorem C99_step : forall (W : env) fuel (u0 : U) rows cols r_u r_v f k c T (g : args),
    3 <= rows -> 3 <= cols -> static g (stateless (react_diffuse r_u r_v f k)) -> 1 <= T -> (Z.to_nat T <= fuel)%nat -> config W (rows * cols) (fun _ => True) c ->
    exists net hs, cellular_automaton2d rows cols 1 "von Neumann" true = Ok net /\ runs W fuel u0 net c T g hs /\ nth_error hs 0 = Some (to_dict W c) /\
      Forall (filled (rows * cols)) hs /\
      forall t S S' v, nth_error hs t = Some S -> nth_error hs (Datatypes.S t) = Some S' -> 0 <= v < rows * cols ->
        let u := conc_u S v in let w := conc_v S v in
        (conc_u S' v == u + r_u * laplacian rows cols (conc_u S) v - u * (w * w) + f * (1 - u))%Q /\
        (conc_v S' v == w + r_v * laplacian rows cols (conc_v S) v + u * (w * w) - k * w)%Q.
  Proof.
    intros W fuel u0 rows cols r_u r_v f k c T g Hr Hc Hst HT Hf [Hlen Hcf].
    destruct (torus_lattice rows cols 1 "von Neumann" ltac:(lia) ltac:(lia) ltac:(nia) ltac:(lia) ltac:(auto)) as (net & nb & E & (Hnd & Hnodes & Hcl & Hnl & Hnb & Hub) & Hnbd & Hin).
    exists net. pose proof (four_neighbours rows cols Hr Hc nb Hnbd Hub Hin) as H4.
    set (F := fun (v : Z) (s : Z -> Q * Q) => let l := map s (filter (fun w => negb (eqb w v)) (nb v)) in
      ((fst (s v) + r_u * (fold_left Qplus (map fst l) 0 - 4 * fst (s v)) + (- fst (s v) * (snd (s v) * snd (s v)) + f * (1 - fst (s v))))%Q,
       (snd (s v) + r_v * (fold_left Qplus (map snd l) 0 - 4 * snd (s v)) + (fst (s v) * (snd (s v) * snd (s v)) - k * snd (s v)))%Q)).
    set (s0 := fun v => match dget (to_dict W c) v with Some a => a | None => (0, 0)%Q end).
    destruct (field_run W fuel u0 net c T g (react_diffuse r_u r_v f k) F s0 Hst Hnd HT Hf ltac:(lia) Hcl) as (hs & Hrun & Hz & _ & Hk).
    - intros v Hv. unfold s0. destruct (Hcf v (proj1 (Hnodes v) Hv)) as (a & Ea & _). rewrite Ea. reflexivity.
    - intros S s t past v x Hs Hv Hx. destruct Hx as [El _ _ Hn Ha _ Ecur _ _]. pose proof (proj1 (Hnodes v) Hv) as Hvr.
      pose proof (nbrs_fun net v _ _ Hn (Hnb v Hvr)) as Enb. rewrite Enb in Ha.
      pose proof (nacts_map (fun w => In w (nodes net)) S s (nb v) (x_nacts x) Ha Hs ltac:(intros w Hw; apply Hnodes; eapply Hub; eassumption)) as Ena.
      rewrite (Hs v Hv) in Ecur. injection Ecur as Ecur. unfold react_diffuse. rewrite (others_ok x s) by (rewrite Enb; exact Ena). rewrite El, Enb, <- Ecur. reflexivity.
    - exists hs. split; [assumption|]. split; [assumption|]. split; [assumption|].
      assert (Hval : forall t S v, nth_error hs t = Some S -> 0 <= v < rows * cols -> dget S v = Some (field_state F t s0 v)) by (intros t S v Et Hv; apply (Hk t S Et), Hnodes; assumption).
      assert (Huv : forall t S v, nth_error hs t = Some S -> 0 <= v < rows * cols -> conc_u S v = fst (field_state F t s0 v) /\ conc_v S v = snd (field_state F t s0 v)).
      { intros t S v Et Hv. unfold conc_u, conc_v. rewrite (Hval t S v Et Hv). auto. }
      split.
      + apply Forall_forall. intros S HS. apply In_nth_error in HS. destruct HS as [t Et]. intros v Hv. destruct (Huv t S v Et Hv) as [-> ->]. rewrite (Hval t S v Et Hv). destruct (field_state F t s0 v). reflexivity.
      + intros t S S' v Et Et' Hv. cbv zeta. destruct (Huv _ S' v Et' Hv) as [-> ->]. rewrite field_state_S. set (s := field_state F t s0) in *.
        assert (Hlap : forall p : Q * Q -> Q, (forall w, 0 <= w < rows * cols -> True) -> (fold_left Qplus (map p (map s (filter (fun w => negb (eqb w v)) (nb v)))) 0 - 4 * p (s v) == laplacian rows cols (fun w => p (s w)) v)%Q).
        { intros p _. rewrite fold_Qplus, (Qsum_perm _ _ (Permutation_map p (Permutation_map s (H4 v Hv)))). unfold laplacian, Qsum. cbn [map fold_right]. ring. }
        assert (Hext : forall (a b : Z -> Q), (forall w, 0 <= w < rows * cols -> a w = b w) -> (laplacian rows cols a v == laplacian rows cols b v)%Q).
        { intros a b Hab. unfold laplacian. rewrite up_shift, down_shift, (left_shift rows cols), (right_shift rows cols) by assumption.
          rewrite !Hab by (assumption || (apply torus_shift_range; lia)). reflexivity. }
        destruct (Huv t S v Et Hv) as [Eu Ev]. rewrite Eu, Ev.
        rewrite (Hext (conc_u S) (fun w => fst (s w)) (fun w Hw => proj1 (Huv t S w Et Hw))), (Hext (conc_v S) (fun w => snd (s w)) (fun w Hw => proj2 (Huv t S w Et Hw))).
        fold s. clearbody s. unfold F. cbn [fst snd]. rewrite (Hlap fst), (Hlap snd) by auto. split; ring.
  Qed.

  (** C99: the total amount changes only by what is fed in and what is killed; diffusion moves it about and the reaction turns u into v *)
  Theorem C99_balance : forall (W : env) fuel (u0 : U) rows cols r_u r_v f k c T (g : args),
    3 <= rows -> 3 <= cols -> static g (stateless (react_diffuse r_u r_v f k)) -> 1 <= T -> (Z.to_nat T <= fuel)%nat -> config W (rows * cols) (fun _ => True) c ->
    exists net hs, cellular_automaton2d rows cols 1 "von Neumann" true = Ok net /\ runs W fuel u0 net c T g hs /\
      let total s := around (rows * cols) s in
      (forall t S S', nth_error hs t = Some S -> nth_error hs (Datatypes.S t) = Some S' ->
         (total (conc_u S') + total (conc_v S') == total (conc_u S) + total (conc_v S) + f * total (fun v => 1 - conc_u S v) - k * total (conc_v S))%Q) /\
      ((f == 0)%Q -> (k == 0)%Q -> forall t S, nth_error hs t = Some S -> (total (conc_u S) + total (conc_v S) == total (conc_u (to_dict W c)) + total (conc_v (to_dict W c)))%Q) /\
      (* without v, u relaxes to 1 *)
      ((forall v, 0 <= v < rows * cols -> (conc_v (to_dict W c) v == 0)%Q) -> forall t S, nth_error hs t = Some S ->
         (forall v, 0 <= v < rows * cols -> (conc_v S v == 0)%Q) /\
         (total (fun v => 1 - conc_u S v) == (1 - f) ^ Z.of_nat t * total (fun v => 1 - conc_u (to_dict W c) v))%Q /\
         ((forall v, 0 <= v < rows * cols -> (conc_u (to_dict W c) v == 1)%Q) -> forall v, 0 <= v < rows * cols -> (conc_u S v == 1)%Q)).
  Proof.
    intros W fuel u0 rows cols r_u r_v f k c T g Hr Hc Hst HT Hf Hcf. destruct (C99_step W fuel u0 rows cols r_u r_v f k c T g Hr Hc Hst HT Hf Hcf) as (net & hs & E & Hrun & Hz & _ & Hstep).
    exists net, hs. split; [assumption|]. split; [assumption|]. intros total.
    assert (Hbal : forall t S S', nth_error hs t = Some S -> nth_error hs (Datatypes.S t) = Some S' ->
         (total (conc_u S') + total (conc_v S') == total (conc_u S) + total (conc_v S) + f * total (fun v => 1 - conc_u S v) - k * total (conc_v S))%Q).
    { intros t S S' Et Et'. unfold total. rewrite <- around_add.
      rewrite (around_ext _ _ (fun v => conc_u S v + (conc_v S v + (r_u * laplacian rows cols (conc_u S) v + (r_v * laplacian rows cols (conc_v S) v + (f * (1 - conc_u S v) + (- k) * conc_v S v)))))%Q).
      - rewrite !around_add, !around_scale, !around_laplacian by assumption. ring.
      - intros v Hv. destruct (Hstep t S S' v Et Et' Hv) as [-> ->]. ring. }
    split; [exact Hbal|]. split.
    - intros Hf0 Hk0. apply (along hs (to_dict W c) (fun _ S => (total (conc_u S) + total (conc_v S) == total (conc_u (to_dict W c)) + total (conc_v (to_dict W c)))%Q)); [assumption|reflexivity|].
      intros t S S' Et Et' IH. rewrite (Hbal t S S' Et Et'), Hf0, Hk0, IH. ring.
    - intros Hv0.
      assert (Hlap : forall (s : Z -> Q) a v, (forall w, 0 <= w < rows * cols -> (s w == a)%Q) -> 0 <= v < rows * cols -> (laplacian rows cols s v == 0)%Q).
      { intros s a v Hs Hv. unfold laplacian. rewrite up_shift, down_shift, (left_shift rows cols), (right_shift rows cols) by assumption.
        rewrite !Hs by (assumption || (apply torus_shift_range; lia)). ring. }
      assert (HV : forall t S, nth_error hs t = Some S -> forall v, 0 <= v < rows * cols -> (conc_v S v == 0)%Q).
      { apply (along hs (to_dict W c) (fun _ S => forall v, 0 <= v < rows * cols -> (conc_v S v == 0)%Q)); [assumption|assumption|].
        intros t S S' Et Et' IH v Hv. destruct (Hstep t S S' v Et Et' Hv) as [_ ->]. rewrite (Hlap (conc_v S) 0%Q v IH Hv), (IH v Hv). ring. }
      intros t S Et. split; [apply (HV t S Et)|]. split.
      + revert t S Et. apply (along hs (to_dict W c) (fun t S => (total (fun v => 1 - conc_u S v) == (1 - f) ^ Z.of_nat t * total (fun v => 1 - conc_u (to_dict W c) v))%Q)); [assumption|change ((1 - f) ^ Z.of_nat 0)%Q with 1%Q; ring|].
        intros t S S' Et Et' IH. rewrite Nat2Z.inj_succ. unfold Z.succ.
        assert (Epow : ((1 - f) ^ (Z.of_nat t + 1) == (1 - f) ^ Z.of_nat t * (1 - f))%Q).
        { destruct (Qeq_dec (1 - f) 0) as [E0|E0]; [|rewrite Qpower_plus by assumption; reflexivity]. rewrite E0, Qmult_0_r. apply Qpower_0. lia. }
        rewrite Epow. transitivity ((1 - f) * total (fun v => 1 - conc_u S v)%Q)%Q; [|rewrite IH; ring]. unfold total.
        rewrite (around_ext _ _ (fun v => (1 - f) * (1 - conc_u S v) + (- r_u) * laplacian rows cols (conc_u S) v)%Q).
        * rewrite around_add, !around_scale, around_laplacian by assumption. ring.
        * intros v Hv. destruct (Hstep t S S' v Et Et' Hv) as [-> _]. rewrite (HV t S Et v Hv). ring.
      + intros Hu0. revert t S Et. apply (along hs (to_dict W c) (fun _ S => forall v, 0 <= v < rows * cols -> (conc_u S v == 1)%Q)); [assumption|assumption|].
        intros t S S' Et Et' IH v Hv. destruct (Hstep t S S' v Et Et' Hv) as [-> _]. rewrite (Hlap (conc_u S) 1%Q v IH Hv), (IH v Hv), (HV t S Et v Hv). ring.
  Qed.

  (** C99: concentrations stay meaningful as long as v is small *)
  Theorem C99_bounds : forall (W : env) fuel (u0 : U) rows cols r_u r_v f k c T (g : args),
    3 <= rows -> 3 <= cols -> static g (stateless (react_diffuse r_u r_v f k)) -> 1 <= T -> (Z.to_nat T <= fuel)%nat -> config W (rows * cols) (fun _ => True) c ->
    (0 <= r_u)%Q -> (0 <= r_v)%Q -> (0 <= f)%Q -> (4 * r_v + k <= 1)%Q ->
    exists net hs, cellular_automaton2d rows cols 1 "von Neumann" true = Ok net /\ runs W fuel u0 net c T g hs /\
      forall t S S', nth_error hs t = Some S -> nth_error hs (Datatypes.S t) = Some S' ->
        (forall v, 0 <= v < rows * cols -> (0 <= conc_u S v <= 1 /\ 0 <= conc_v S v /\ conc_v S v * conc_v S v <= 1 - 4 * r_u - f)%Q) ->
        forall v, 0 <= v < rows * cols -> (0 <= conc_u S' v <= 1 /\ 0 <= conc_v S' v)%Q.
  Proof.
    intros W fuel u0 rows cols r_u r_v f k c T g Hr Hc Hst HT Hf Hcf Hru Hrv Hf0 Hk. destruct (C99_step W fuel u0 rows cols r_u r_v f k c T g Hr Hc Hst HT Hf Hcf) as (net & hs & E & Hrun & Hz & _ & Hstep).
    exists net, hs. split; [assumption|]. split; [assumption|]. intros t S S' Et Et' HS v Hv. destruct (Hstep t S S' v Et Et' Hv) as [E1 E2]. rewrite E1, E2. clear E1 E2.
    assert (Hn : forall w, 0 <= w < rows * cols -> (0 <= conc_u S w <= 1 /\ 0 <= conc_v S w)%Q) by (intros w Hw; destruct (HS w Hw) as (H1 & H2 & _); auto).
    unfold laplacian. rewrite up_shift, down_shift, (left_shift rows cols), (right_shift rows cols) by assumption.
    assert (Hsh : forall i j, 0 <= torus_shift rows cols i j v < rows * cols) by (intros i j; apply torus_shift_range; lia).
    destruct (Hn _ (Hsh (-1) 0)) as [A1 B1]. destruct (Hn _ (Hsh 1 0)) as [A2 B2]. destruct (Hn _ (Hsh 0 (-1))) as [A3 B3]. destruct (Hn _ (Hsh 0 1)) as [A4 B4].
    destruct (HS v Hv) as (Hu & Hw & Hw2).
    set (u1 := conc_u S (torus_shift rows cols (-1) 0 v)) in *. set (u2 := conc_u S (torus_shift rows cols 1 0 v)) in *. set (u3 := conc_u S (torus_shift rows cols 0 (-1) v)) in *. set (u4 := conc_u S (torus_shift rows cols 0 1 v)) in *.
    set (w1 := conc_v S (torus_shift rows cols (-1) 0 v)) in *. set (w2 := conc_v S (torus_shift rows cols 1 0 v)) in *. set (w3 := conc_v S (torus_shift rows cols 0 (-1) v)) in *. set (w4 := conc_v S (torus_shift rows cols 0 1 v)) in *.
    set (u := conc_u S v) in *. set (w := conc_v S v) in *. clearbody u1 u2 u3 u4 w1 w2 w3 w4 u w. clear - Hru Hrv Hf0 Hk A1 A2 A3 A4 B1 B2 B3 B4 Hu Hw Hw2.
    assert (Hsum : (0 <= r_u * (u1 + u2 + u3 + u4))%Q) by (apply Qmult_le_0_compat; lra).
    assert (Hsum1 : (0 <= r_u * ((1 - u1) + (1 - u2) + (1 - u3) + (1 - u4)))%Q) by (apply Qmult_le_0_compat; lra).
    assert (Hsumw : (0 <= r_v * (w1 + w2 + w3 + w4))%Q) by (apply Qmult_le_0_compat; lra).
    assert (Hww : (0 <= w * w)%Q) by (apply Qmult_le_0_compat; lra).
    assert (P1 : (0 <= u * (1 - 4 * r_u - f - w * w))%Q) by (apply Qmult_le_0_compat; lra).
    assert (P2 : (0 <= (1 - u) * (1 - 4 * r_u - f))%Q) by (apply Qmult_le_0_compat; lra).
    assert (P3 : (0 <= u * (w * w))%Q) by (apply Qmult_le_0_compat; lra).
    assert (P4 : (0 <= w * (1 - 4 * r_v - k))%Q) by (apply Qmult_le_0_compat; lra).
    split; [split|]; lra.
  Qed.
End Theorems.
Print Assumptions C99_step.
Print Assumptions C99_balance.
Print Assumptions C99_bounds.

(** ** Examples: the parameters of the demo; a dot of (1/2, 1/4) in a field of (1, 0) *)
Definition Wr : env Z Z (Q * Q) unit unit := mkEnv Z.of_nat Some (fun _ => 0) (fun _ => Err Unmodelled) (fun _ => Err Unmodelled) (fun _ => Err Unmodelled) (fun _ => Err Unmodelled).
Definition rargs (r_u r_v f k : Q) : @args Z Z (Q * Q) unit unit := mkArgs (Some (stateless (react_diffuse r_u r_v f k))) None None [] ACTIVITIES_FIRST true false true false false None.
Definition dot (rows cols a : Z) : dict Z (Q * Q) := map (fun v => (v, if v =? a then (1 # 2, 1 # 4)%Q else (1, 0)%Q)) (zrange 0 (rows * cols)).

Lemma dot_get rows cols a v : 0 <= v < rows * cols -> dget (dot rows cols a) v = Some (if v =? a then (1 # 2, 1 # 4)%Q else (1, 0)%Q).
Proof. intros Hv. unfold dot. apply (dget_table (fun v => if v =? a then (1 # 2, 1 # 4)%Q else (1, 0)%Q)). apply in_zrange. assumption. Qed.

Example C99_example : static (rargs (1 # 50) (1 # 100) (1 # 100) (1 # 20)) (stateless (react_diffuse (1 # 50) (1 # 100) (1 # 100) (1 # 20))) /\
  config Wr (100 * 100) (fun _ => True) (CDict (dot 100 100 5050)) /\
  (4 * (1 # 100) + (1 # 20) <= 1)%Q /\
  forall v, 0 <= v < 100 * 100 -> (0 <= conc_u (dot 100 100 5050) v <= 1 /\ 0 <= conc_v (dot 100 100 5050) v /\ conc_v (dot 100 100 5050) v * conc_v (dot 100 100 5050) v <= 1 - 4 * (1 # 50) - (1 # 100))%Q.
Proof.
  split; [repeat split|]. split; [split|].
  - cbn [to_dict]. unfold dot. rewrite map_length, length_zrange. lia.
  - intros v Hv. eexists. split; [apply dot_get; assumption|exact Logic.I].
  - split; [vm_compute; discriminate|]. intros v Hv. unfold conc_u, conc_v. rewrite dot_get by assumption. destruct (v =? 5050); cbn [fst snd]; vm_compute; intuition discriminate.
Qed.

(** on a grid with two rows a cell has three neighbours besides itself, and the uniform field is not stationary *)
Definition uniform (m : Z) (a : Q * Q) : dict Z (Q * Q) := map (fun v => (v, a)) (zrange 0 m).
Definition reads (traj : list (state Z Z (Q * Q) unit unit)) : res (list (option (dict Z (Q * Q)))) := rmap (activities Wr) traj.
Theorem C99_two_rows_refuted : exists rows cols net traj S0 S1, 9 <= rows * cols /\ cellular_automaton2d rows cols 1 "von Neumann" true = Ok net /\
  evolve Wr 2 tt net (Some (CDict (uniform (rows * cols) (1, 0)%Q))) (Some 2) None (rargs (1 # 50) (1 # 100) 0 0) = Ok (tt, traj) /\
  reads traj = Ok [Some S0; Some S1] /\ (exists u v, dget S1 0 = Some (u, v) /\ (u < 1)%Q).
Proof.
  exists 2, 5. destruct (cellular_automaton2d 2 5 1 "von Neumann" true) as [net|] eqn:En; [|vm_compute in En; discriminate].
  exists net. vm_compute in En. injection En as <-.
  do 3 eexists. split; [lia|]. split; [reflexivity|]. split; [vm_compute; reflexivity|]. split; [vm_compute; reflexivity|].
  do 2 eexists. split; [vm_compute; reflexivity|vm_compute; reflexivity].
Qed.
Print Assumptions C99_two_rows_refuted.

(** without the bound on v, u can become negative *)
Theorem C99_large_v_refuted : exists net traj S0 S1, cellular_automaton2d 3 3 1 "von Neumann" true = Ok net /\
  evolve Wr 2 tt net (Some (CDict (uniform 9 (1, 2)%Q))) (Some 2) None (rargs (1 # 50) (1 # 100) (1 # 100) (1 # 20)) = Ok (tt, traj) /\
  reads traj = Ok [Some S0; Some S1] /\ (exists u v, dget S1 0 = Some (u, v) /\ (u < 0)%Q).
Proof.
  destruct (cellular_automaton2d 3 3 1 "von Neumann" true) as [net|] eqn:En; [|vm_compute in En; discriminate].
  exists net. vm_compute in En. injection En as <-.
  do 3 eexists. split; [reflexivity|]. split; [vm_compute; reflexivity|]. split; [vm_compute; reflexivity|].
  do 2 eexists. split; [vm_compute; reflexivity|vm_compute; reflexivity].
Qed.
Print Assumptions C99_large_v_refuted.
