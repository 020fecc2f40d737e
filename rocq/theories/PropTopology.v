(** Property theorems for adjacency matrices and topologies (C06, C09 - C14). *)
From Verif Require Import Py PyFacts ListFacts Network NetworkSpec.
From Verif Require Import Topology TopologySpec TopologyProofs TopologyProofs2 TopologyProofs3 TopologyProofs4 TopologyProofs5.
Open Scope string_scope.
Open Scope list_scope.
Open Scope Z_scope.

(** C06. [zero], [add], [nz] are the number type of the matrix: [nz v] is [v != 0]. *)
Theorem C06_adjacency_roundtrip : forall (V : Type) (zero one : V) (add : V -> V -> V) (nz : V -> bool) (M : list (list V)) (k : Z),
    (forall v, nz v = false <-> v = zero) -> (forall v, add zero v = v) -> is_square k M ->
    exists net, from_adjacency_matrix nz M = (net, Ok tt) /\ net_rot net = None /\
      (forall i j v, entry_is M i j v -> v <> zero -> edge net i j = Ok [[("weight", v)]]) /\
      (forall i j, (forall v, entry_is M i j v -> v = zero) -> edge net i j = Err KeyError) /\
      NoDup (nodes net) /\
      (forall x, In x (nodes net) <-> exists y v, v <> zero /\ (entry_is M x y v \/ entry_is M y x v)) /\
      (forall sum, to_adjacency_matrix zero one add (fun v => v) net (Some (zrange 0 k)) sum (Some "weight") = Ok M <->
         (forall x, 0 <= x < k -> exists y v, v <> zero /\ (entry_is M x y v \/ entry_is M y x v))) /\
      (forall sum, exists M', to_adjacency_matrix zero one add (fun v => v) net None sum (Some "weight") = Ok M' /\
         length M' = length (nodes net) /\
         forall p q u w, nth_error (nodes net) p = Some u -> nth_error (nodes net) q = Some w ->
           at_ M' (Z.of_nat p) (Z.of_nat q) = at_ M u w).
Proof. exact @from_adjacency_roundtrip. Qed.
Print Assumptions C06_adjacency_roundtrip.

Example C06_nonvacuous : (forall v, nzb v = false <-> v = 0) /\ (forall v, 0 + v = v) /\ is_square 3 [[0; 2; 0]; [0; 0; 5]; [0; 0; -1]].
Proof.
  split; [intros v; unfold nzb; destruct (Z.eqb_spec v 0); cbn; split; congruence|]. split; [intros; lia|].
  split; [reflexivity|]. intros row Hr. cbn in Hr. repeat destruct Hr as [<-|Hr]; try reflexivity. contradiction.
Qed.

(** an isolated index is dropped: the matrix does not come back *)
Theorem C06_isolated_index_dropped_refuted : exists M : list (list Z),
    is_square 3 M /\ ~ In 1 (nodes (fst (from_adjacency_matrix nzb M))) /\
    to_adjacency_matrix 0 1 Z.add (fun v => v) (fst (from_adjacency_matrix nzb M)) None false (Some "weight") <> Ok M.
Proof.
  exists [[0; 0; 4]; [0; 0; 0]; [0; 0; 0]]. split; [|split].
  - split; [reflexivity|]. intros row Hr. cbn in Hr. repeat destruct Hr as [<-|Hr]; try reflexivity. contradiction.
  - vm_compute. intros [E|[E|[]]]; discriminate.
  - vm_compute. discriminate.
Qed.
Print Assumptions C06_isolated_index_dropped_refuted.

(** all indices survive, but the default node list returns the matrix permuted *)
Theorem C06_default_order_refuted : exists M M' : list (list Z),
    is_square 3 M /\ (forall i, In i [0; 1; 2] -> In i (nodes (fst (from_adjacency_matrix nzb M)))) /\
    to_adjacency_matrix 0 1 Z.add (fun v => v) (fst (from_adjacency_matrix nzb M)) None false (Some "weight") = Ok M' /\ M' <> M.
Proof.
  exists [[0; 0; 1]; [0; 0; 0]; [0; 1; 0]], [[0; 1; 0]; [0; 0; 1]; [0; 0; 0]]. split; [|split; [|split]].
  - split; [reflexivity|]. intros row Hr. cbn in Hr. repeat destruct Hr as [<-|Hr]; try reflexivity. contradiction.
  - vm_compute. intros i Hi. repeat destruct Hi as [<-|Hi]; auto.
  - vm_compute. reflexivity.
  - discriminate.
Qed.
Print Assumptions C06_default_order_refuted.

(** C09 *)
Theorem C09_ring_adjacency : forall n r, 3 <= n -> 0 <= r <= n ->
    exists M, adj_cellular_automaton n r "periodic" = Ok M /\ is_square n M /\
      forall i j, 0 <= i < n -> 0 <= j < n -> at_ M i j = Some (if ring_distance n i j <=? r then 1 else 0).
Proof. exact adj1d_spec. Qed.
Print Assumptions C09_ring_adjacency.

Theorem C09_errors : 
    (forall n r b, n < 3 -> adj_cellular_automaton n r b = Err (Raise "There must be at least 3 cells")) /\
    (forall n r b, 3 <= n -> b <> "periodic" -> adj_cellular_automaton n r b = Err (Raise "unsupported boundary condition")) /\
    (forall n r, 3 <= n -> n < r -> adj_cellular_automaton n r "periodic" = Err IndexError).
Proof. exact (conj adj1d_small (conj adj1d_boundary adj1d_err)). Qed.
Print Assumptions C09_errors.

Example C09_nonvacuous : adj_cellular_automaton 5 1 "periodic" =
  Ok [[1; 1; 0; 0; 1]; [1; 1; 1; 0; 0]; [0; 1; 1; 1; 0]; [0; 0; 1; 1; 1]; [1; 0; 0; 1; 1]] /\ ring_distance 5 0 4 = 1 /\
  adj_cellular_automaton 4 5 "periodic" = Err IndexError.
Proof. vm_compute. auto. Qed.

(** C10 *)
Theorem C10_ring_order : forall n r, 3 <= n -> 0 <= r -> 2 * r + 1 <= n ->
    exists net rs, cellular_automaton n r true = Ok net /\ net_rot net = Some rs /\
      (forall c, In c (nodes net) <-> 0 <= c < n) /\
      forall c, 0 <= c < n -> dget rs c = Some (map (fun d => (c + d) mod n) (zrange (- r) (r + 1))).
Proof. exact ca1d_order. Qed.
Print Assumptions C10_ring_order.

Example C10_nonvacuous : option_map (fun rs => dget rs 6) (match cellular_automaton 7 2 true with Ok net => net_rot net | _ => None end)
  = Some (Some [4; 5; 6; 0; 1]).
Proof. vm_compute. reflexivity. Qed.

(** C11 *)
Theorem C11_moore : forall rows cols r, 0 < rows -> 0 < cols -> 9 <= rows * cols ->
    exists M, adj_cellular_automaton2d rows cols r "Moore" "periodic" = Ok M /\ is_square (rows * cols) M /\
      forall a b c d, 0 <= a < rows -> 0 <= b < cols -> 0 <= c < rows -> 0 <= d < cols ->
        let adjacent := torus_step rows cols (moore_offset r) a b c d in
        (adjacent -> at_ M (a * cols + b) (c * cols + d) = Some 1) /\
        (~ adjacent -> at_ M (a * cols + b) (c * cols + d) = Some 0).
Proof. exact adj2d_moore. Qed.
Print Assumptions C11_moore.

Theorem C11_von_neumann : forall rows cols r, 0 < rows -> 0 < cols -> 9 <= rows * cols ->
    exists M, adj_cellular_automaton2d rows cols r "von Neumann" "periodic" = Ok M /\ is_square (rows * cols) M /\
      forall a b c d, 0 <= a < rows -> 0 <= b < cols -> 0 <= c < rows -> 0 <= d < cols ->
        let adjacent := torus_step rows cols (von_neumann_offset r) a b c d in
        (adjacent -> at_ M (a * cols + b) (c * cols + d) = Some 1) /\
        (~ adjacent -> at_ M (a * cols + b) (c * cols + d) = Some 0).
Proof. exact adj2d_von_neumann. Qed.
Print Assumptions C11_von_neumann.

Theorem C11_symmetric : forall rows cols r nb M, nb = "Moore" \/ nb = "von Neumann" ->
    adj_cellular_automaton2d rows cols r nb "periodic" = Ok M -> 0 < rows -> 0 < cols -> 9 <= rows * cols ->
    forall i j, 0 <= i < rows * cols -> 0 <= j < rows * cols -> at_ M i j = at_ M j i.
Proof. exact adj2d_symmetric. Qed.
Print Assumptions C11_symmetric.

Theorem C11_errors : forall rows cols r nb boundary,
    (rows * cols < 9 -> adj_cellular_automaton2d rows cols r nb boundary = Err (Raise "There must be at least 9 cells")) /\
    (9 <= rows * cols -> boundary <> "periodic" ->
       adj_cellular_automaton2d rows cols r nb boundary = Err (Raise "unsupported boundary condition")) /\
    (9 <= rows * cols -> nb <> "von Neumann" -> nb <> "Moore" -> nb <> "Hex" ->
       adj_cellular_automaton2d rows cols r nb "periodic" = Err (Raise "neighbourhood type not supported")) /\
    (9 <= rows * cols -> rows < 0 -> nb = "von Neumann" \/ nb = "Moore" \/ nb = "Hex" ->
       adj_cellular_automaton2d rows cols r nb "periodic" = Err ValueError).
Proof. exact adj2d_errors. Qed.
Print Assumptions C11_errors.

Example C11_nonvacuous : match adj_cellular_automaton2d 3 4 1 "von Neumann" "periodic" with Ok M => nth_error M 4 | _ => None end
  = Some [1; 0; 0; 0; 1; 1; 0; 1; 1; 0; 0; 0] /\
  torus_step 3 4 (von_neumann_offset 1) 1 0 1 3 /\ torus_step 3 4 (moore_offset 1) 1 0 0 3.
Proof.
  split; [vm_compute; reflexivity|]. split; [exists 0, (-1)|exists (-1), (-1)]; (split; [unfold von_neumann_offset, moore_offset; lia|split; reflexivity]).
Qed.

(** C12 *)
Theorem C12_hex_r1 : forall rows cols, 0 < rows -> 0 < cols -> 9 <= rows * cols ->
    exists M, adj_cellular_automaton2d rows cols 1 "Hex" "periodic" = Ok M /\ is_square (rows * cols) M /\
      forall a b c d, 0 <= a < rows -> 0 <= b < cols -> 0 <= c < rows -> 0 <= d < cols ->
        let adjacent := torus_step rows cols (hex_offset a) a b c d in
        (adjacent -> at_ M (a * cols + b) (c * cols + d) = Some 1) /\
        (~ adjacent -> at_ M (a * cols + b) (c * cols + d) = Some 0).
Proof. exact adj2d_hex1. Qed.
Print Assumptions C12_hex_r1.

(** seven different cells: itself and six others *)
Theorem C12_hex_seven : forall rows cols M i, 3 <= rows -> 3 <= cols -> adj_cellular_automaton2d rows cols 1 "Hex" "periodic" = Ok M ->
    0 <= i < rows * cols -> exists row, nth_error M (Z.to_nat i) = Some row /\ zsum row = 7.
Proof. exact hex_count1. Qed.
Print Assumptions C12_hex_seven.

Theorem C12_hex_symmetric_even_rows : forall rows cols M, adj_cellular_automaton2d rows cols 1 "Hex" "periodic" = Ok M ->
    0 < rows -> 0 < cols -> 9 <= rows * cols -> Z.even rows = true ->
    forall i j, 0 <= i < rows * cols -> 0 <= j < rows * cols -> at_ M i j = at_ M j i.
Proof. exact hex_symmetric. Qed.
Print Assumptions C12_hex_symmetric_even_rows.

(** every odd number of rows gives an asymmetric relation *)
Theorem C12_hex_asymmetric_odd_rows : forall rows cols M, adj_cellular_automaton2d rows cols 1 "Hex" "periodic" = Ok M ->
    3 <= rows -> 3 <= cols -> Z.even rows = false ->
    at_ M 0 ((rows - 1) * cols + 1) = Some 1 /\ at_ M ((rows - 1) * cols + 1) 0 = Some 0.
Proof. exact hex_asymmetric. Qed.
Print Assumptions C12_hex_asymmetric_odd_rows.

(** radius 2: 21 cells, where a hexagonal disk has 1 + 6 + 12 = 19 *)
Theorem C12_hex_r2 : forall rows cols M i, 5 <= rows -> 5 <= cols -> adj_cellular_automaton2d rows cols 2 "Hex" "periodic" = Ok M ->
    0 <= i < rows * cols -> exists row, nth_error M (Z.to_nat i) = Some row /\ zsum row = 21.
Proof. exact hex_count2. Qed.
Print Assumptions C12_hex_r2.

Example C12_nonvacuous : exists M, adj_cellular_automaton2d 4 4 1 "Hex" "periodic" = Ok M /\
  nth_error M 5 = Some [1; 1; 0; 0; 1; 1; 1; 0; 1; 1; 0; 0; 0; 0; 0; 0].
Proof. eexists. split; vm_compute; reflexivity. Qed.

(** C13 *)
Lemma asc_ascending l : asc l -> ascending l.
Proof.
  induction l as [|x xs IH]; intros Ha; [constructor|]. apply asc_cons_inv in Ha. destruct Ha as [Hxs Hx].
  destruct xs as [|y ys]; constructor; [apply Hx; left; reflexivity|]. apply IH. assumption.
Qed.

Theorem C13_centre_order : forall rows cols r nb, 0 < rows -> 0 < cols -> 9 <= rows * cols -> 0 <= r ->
    nb = "von Neumann" \/ nb = "Moore" \/ nb = "Hex" ->
    exists net rs, cellular_automaton2d rows cols r nb true = Ok net /\ net_rot net = Some rs /\
      (forall v, In v (nodes net) <-> 0 <= v < rows * cols) /\
      forall v, 0 <= v < rows * cols -> exists T l inc,
        dget rs v = Some T /\ in_edges net v = Ok inc /\ dkeys inc = l /\ NoDup T /\ Permutation T l /\
        ascending l /\ rotation_of l T /\ nth_error T (length T / 2) = Some v.
Proof.
  intros rows cols r nb Hr Hc Hn Hrad Hnb.
  assert (Hcrit : exists crit, nb = "von Neumann" /\ crit = crit_von_neumann \/ nb = "Moore" /\ crit = crit_moore \/ nb = "Hex" /\ crit = crit_hex)
    by (destruct Hnb as [->|[->| ->]]; eauto 8).
  destruct Hcrit as [crit Hcrit].
  destruct (ca2d_ordered rows cols r nb crit Hr Hc Hn Hrad Hcrit) as (net & rs & E & Erot & Ek & Hnd & Hnodes & Hv).
  exists net, rs. split; [assumption|]. split; [assumption|]. split; [assumption|]. intros v Hv'.
  destruct (cell_surj rows cols v Hc Hv') as (Ev & Ha & Hb).
  destruct (Hv _ _ Ha Hb) as (T & l & inc & E1 & E2 & E3 & Hasc & Hub & Hin & j & Hj & ET & En).
  rewrite <- Ev in *. exists T, l, inc. split; [assumption|]. split; [assumption|]. split; [assumption|].
  assert (Hp : Permutation T l) by (rewrite ET; apply rot_perm).
  split; [apply (Permutation_NoDup (Permutation_sym Hp)), asc_NoDup; assumption|]. split; [assumption|].
  split; [apply asc_ascending; assumption|]. split.
  - exists (firstn j l), (skipn j l). split; [symmetry; apply firstn_skipn|assumption].
  - rewrite (Permutation_length Hp). assumption.
Qed.
Print Assumptions C13_centre_order.

(** interior cells of a Moore grid, any radius: the row-major window *)
Theorem C13_moore_interior : forall rows cols r, 0 < rows -> 0 < cols -> 9 <= rows * cols -> 0 <= r ->
    exists net rs, cellular_automaton2d rows cols r "Moore" true = Ok net /\ net_rot net = Some rs /\
      forall a b, r <= a < rows - r -> r <= b < cols - r ->
        dget rs (a * cols + b) = Some (flat_map (fun dx => map (fun dy => (a + dx) * cols + (b + dy)) (zrange (- r) (r + 1))) (zrange (- r) (r + 1))).
Proof. exact moore_interior. Qed.
Print Assumptions C13_moore_interior.

(** a border cell: not the spatial order; on a 4x4 torus the window of cell 0 is
    15 12 13 / 3 0 1 / 7 4 5 *)
Theorem C13_border_spatial_order_refuted : exists net rs, cellular_automaton2d 4 4 1 "Moore" true = Ok net /\ net_rot net = Some rs /\
    dget rs 0 <> Some [15; 12; 13; 3; 0; 1; 7; 4; 5].
Proof.
  assert (E : exists net, cellular_automaton2d 4 4 1 "Moore" true = Ok net) by (eexists; vm_compute; reflexivity).
  destruct E as [net E]. exists net.
  assert (Er : match cellular_automaton2d 4 4 1 "Moore" true with Ok n => match net_rot n with Some rs => negb (eqb (dget rs 0) (Some [15; 12; 13; 3; 0; 1; 7; 4; 5])) | None => false end | _ => false end = true)
    by (vm_compute; reflexivity).
  rewrite E in Er. destruct (net_rot net) as [rs|]; [|discriminate]. exists rs. split; [assumption|]. split; [reflexivity|].
  intros Eq. rewrite Eq, eqb_refl in Er. discriminate.
Qed.
Print Assumptions C13_border_spatial_order_refuted.

Example C13_nonvacuous : option_map (fun rs => dget rs 6) (match cellular_automaton2d 5 5 1 "Moore" true with Ok net => net_rot net | _ => None end)
  = Some (Some [0; 1; 2; 5; 6; 7; 10; 11; 12]).
Proof. vm_compute. reflexivity. Qed.

(** none of the attributes would collide with a parameter of add_edge *)
Definition no_parameter_name {V} (a : dict string V) : Prop := forall k x, In (k, x) a -> k <> "self" /\ k <> "i" /\ k <> "j".
Lemma no_clash {V} (a : dict string V) : no_parameter_name a -> kwargs_clash ["self"; "i"; "j"] a = false.
Proof.
  intros Ha. unfold kwargs_clash. apply not_true_is_false. intros E. apply existsb_exists in E. destruct E as (k & Hk & E).
  unfold dmem in E. destruct (dget a k) as [x|] eqn:Ed; [|discriminate]. apply dget_some_in in Ed. destruct (Ha k x Ed) as (H1 & H2 & H3).
  cbn in Hk. destruct Hk as [<-|[<-|[<-|[]]]]; congruence.
Qed.

(** C14. [f u v] are the attributes supplied for the pair; without a table they are empty. *)
Theorem C14_bipartite : forall (L V : Type) (EQ : EqD L) (A B : list L) (ea : option (dict L (dict L (dict string V)))) (f : L -> L -> dict string V),
    NoDup A -> NoDup B -> (forall x, In x A -> ~ In x B) ->
    (forall u v, In u A -> In v B -> no_parameter_name (f u v)) ->
    match ea with
    | None => forall u v, f u v = []
    | Some d => forall u v, In u A -> In v B -> exists du, dget d u = Some du /\ dget du v = Some (f u v)
    end ->
    exists n, bipartite A B ea = (n, Ok tt) /\
      (forall i j, edge n i j = if in_dec eqd i A then (if in_dec eqd j B then Ok [f i j] else Err KeyError)
                                else if in_dec eqd j A then (if in_dec eqd i B then Ok [f j i] else Err KeyError) else Err KeyError) /\
      (forall x, In x (nodes n) <-> (In x A /\ B <> []) \/ (In x B /\ A <> [])).
Proof. intros L V EQ A B ea f HA HB Hd Hn. apply bipartite_spec; [assumption|assumption|assumption|]. intros u v Hu Hv. apply no_clash. auto. Qed.
Print Assumptions C14_bipartite.

(** a pair without an entry in the attribute table *)
Theorem C14_bipartite_missing : forall (L V : Type) (EQ : EqD L) (A B : list L) (ea : dict L (dict L (dict string V))),
    (forall u v du a, In u A -> In v B -> dget ea u = Some du -> dget du v = Some a -> no_parameter_name a) ->
    (exists u v, In u A /\ In v B /\ forall du, dget ea u = Some du -> dget du v = None) ->
    snd (bipartite A B (Some ea)) = Err KeyError.
Proof. intros L V EQ A B ea Hn. apply bipartite_missing. intros u v du a Hu Hv E1 E2. apply no_clash. eauto. Qed.
Print Assumptions C14_bipartite_missing.

Example C14_bipartite_nonvacuous : 
  let ea := [(0, [(3, [("weight", 10)]); (4, [("weight", 20)])]); (1, [(3, [("weight", 30)]); (4, [("weight", 40)])])] in
  let n := fst (bipartite [0; 1] [3; 4] (Some ea)) in
  edge n 4 1 = Ok [[("weight", 40)]] /\ edge n 1 4 = Ok [[("weight", 40)]] /\ edge n 0 1 = Err KeyError /\
  snd (bipartite [0; 2] [3] (Some ea)) = Err KeyError.
Proof. vm_compute. auto. Qed.

Theorem C14_complete : forall n, 2 <= n ->
    exists net, complete n = (net, Ok tt) /\
      (forall v, In v (nodes net) <-> 0 <= v < n) /\ NoDup (nodes net) /\
      (forall i j, 0 <= i < n -> 0 <= j < n -> i <> j -> edge net i j = Ok [[("weight", 1)]]) /\
      (forall i j, ~ (0 <= i < n /\ 0 <= j < n /\ i <> j) -> edge net i j = Err KeyError).
Proof. exact complete_spec. Qed.
Print Assumptions C14_complete.

Theorem C14_complete_small : complete 1 = (empty_network, Ok tt) /\ forall n, n <= 0 -> snd (complete n) = Err (Raise "NetworkXError").
Proof. exact complete_small. Qed.
Print Assumptions C14_complete_small.

Theorem C14_disconnected : forall (V : Type) (arg : disconnected_arg Z),
    exists n, disconnected (V:=V) arg = (n, Ok tt) /\ net_rot n = None /\ NoDup (nodes n) /\
      (forall v, In v (nodes n) <-> match arg with DInt k => 0 <= v < k | DList l => In v l | DOther => False end) /\
      (forall v nd, dget (net_nodes n) v = Some nd -> n_attr nd = []) /\
      edges n = [] /\ (forall i j, edge n i j = Err KeyError).
Proof. exact @disconnected_spec. Qed.
Print Assumptions C14_disconnected.

Example C14_nonvacuous : nodes (fst (complete 3)) = [0; 1; 2] /\ nodes (fst (disconnected (V:=Z) (DList [7; 3; 7]))) = [7; 3].
Proof. vm_compute. auto. Qed.
