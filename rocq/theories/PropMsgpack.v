(** * Properties C03 and C04: Network.copy and msgpack compression *)
From Verif Require Import Py PyFacts Network NetworkSpec Msgpack MsgpackSpec MsgpackProofs NetCopy.
Open Scope string_scope.
Open Scope list_scope.
Open Scope Z_scope.

(** ** C04 *)

(** Which values [compress] accepts, and what [decompress] gives back. *)
Theorem C04_roundtrip : forall v, everywhere well_formed v ->
  ((exists bs, compress v = Ok bs) <-> height v <= 511 /\ everywhere in_range v) /\
  (forall bs, compress v = Ok bs -> everywhere plain_keys v -> decompress bs = Ok (tuples_to_lists v)) /\
  (forall bs, compress v = Ok bs -> everywhere plain_keys v -> everywhere no_tuple v -> decompress bs = Ok v) /\
  (forall bs, compress v = Ok bs -> ~ everywhere plain_keys v -> decompress bs = Err TypeError).
Proof.
  intros v Hwf. destruct (roundtrip v Hwf) as (H1 & H2 & H3). split; [exact H1|]. split; [exact H2|]. split; [|exact H3].
  intros bs E Hk Ht. rewrite (H2 bs E Hk), norm_id by assumption. reflexivity.
Qed.
Print Assumptions C04_roundtrip.

(** An integer outside [-2^63, 2^64) is rejected. *)
Theorem C04_big_int_rejected : forall z, ~ (- 2 ^ 63 <= z < 2 ^ 64) -> compress (VInt z) = Err OverflowError.
Proof. intros z Hz. unfold compress. cbn [pack_at]. change (511 <? 0) with false. cbv iota. apply pack_int_err. assumption. Qed.
Print Assumptions C04_big_int_rejected.

(** Every packed byte is a byte. *)
Theorem C04_bytes : forall v bs, compress v = Ok bs -> Forall (fun b => 0 <= b < 256) bs.
Proof. intros v bs. apply pack_bytes_at. Qed.
Print Assumptions C04_bytes.

(** Anything after the packed value is an error: the bytes of a value, followed by at least one more byte, do not decode. *)
Theorem C04_extra_data : forall v bs b rest, everywhere well_formed v -> everywhere plain_keys v -> compress v = Ok bs ->
  decompress (bs ++ b :: rest) = Err (Raise "ExtraData").
Proof.
  intros v bs b rest Hwf Hk E. destruct (pack_reads v Hwf _ _ E) as [Hh Hr]. unfold decompress. rewrite Hr by lia.
  apply keys_ok_iff in Hk. rewrite Hk. reflexivity.
Qed.
Print Assumptions C04_extra_data.

(** No packed value is a proper prefix of another. *)
Theorem C04_prefix_free : forall v w bs b rest, everywhere well_formed v -> everywhere plain_keys v ->
  everywhere well_formed w -> everywhere plain_keys w -> compress v = Ok bs -> compress w <> Ok (bs ++ b :: rest).
Proof.
  intros v w bs b rest Hv Kv Hw Kw Ev Ew. pose proof (C04_extra_data v bs b rest Hv Kv Ev) as H.
  destruct (roundtrip w Hw) as (_ & D & _). rewrite (D _ Ew Kw) in H. discriminate.
Qed.
Print Assumptions C04_prefix_free.

Example C04_extra_data_nonvacuous : exists v bs, everywhere well_formed v /\ everywhere plain_keys v /\ compress v = Ok bs /\
  decompress (bs ++ [192]) = Err (Raise "ExtraData").
Proof.
  exists (VList [VInt 1; VInt 300]), [146; 1; 205; 1; 44]. split; [cbn; tauto|]. split; [cbn; tauto|]. split; vm_compute; reflexivity.
Qed.

(** The encoding is injective up to tuples being lists. *)
Theorem C04_injective : forall v w bs, everywhere well_formed v -> everywhere well_formed w ->
  everywhere plain_keys v -> everywhere plain_keys w -> compress v = Ok bs -> compress w = Ok bs -> tuples_to_lists v = tuples_to_lists w.
Proof.
  intros v w bs Hv Hw Kv Kw Ev Ew. destruct (roundtrip v Hv) as (_ & Dv & _), (roundtrip w Hw) as (_ & Dw & _).
  specialize (Dv bs Ev Kv). specialize (Dw bs Ew Kw). congruence.
Qed.
Print Assumptions C04_injective.

(** Without the depth bound the claim is false: 512 nested lists are rejected. *)
Fixpoint nested (k : nat) : val := match k with O => VNone | S k' => VList [nested k'] end.
Theorem C04_any_depth_refuted : exists v, everywhere well_formed v /\ everywhere in_range v /\ compress v = Err ValueError.
Proof.
  exists (nested 512). split; [|split; [|vm_compute; reflexivity]].
  - generalize 512%nat as k. induction k as [|k IH]; cbn; tauto.
  - generalize 512%nat as k. induction k as [|k IH]; [cbn; tauto|]. cbn [nested everywhere in_range map fold_right length].
    split; [change (Z.of_nat 1) with 1; lia|tauto].
Qed.
Print Assumptions C04_any_depth_refuted.

Example C04_nonvacuous :
  let v := VMap [(VStr "a", VList [VInt (-129); VInt 65536; VNone; VBool true]); (VInt (2 ^ 63), VMap [(VFloat 4607182418800017408, VBytes "xyz")])] in
  (everywhere well_formed v /\ everywhere plain_keys v /\ everywhere in_range v /\ everywhere no_tuple v /\ height v <= 511) /\
  (exists bs, compress v = Ok bs /\ length bs = 38%nat /\ decompress bs = Ok v) /\
  (exists bs, compress (VMap [(VTuple [VInt 1], VNone)]) = Ok bs /\ decompress bs = Err TypeError) /\
  (exists bs, compress (VList [VTuple [VInt 1]]) = Ok bs /\ decompress bs = Ok (VList [VList [VInt 1]])).
Proof.
  intros v. split.
  - subst v. split; [|split; [|split; [vm_compute; repeat split; discriminate|split; [vm_compute; tauto|vm_compute; discriminate]]]].
    + cbn. repeat split; try lia; repeat constructor; cbn; intros Hx; repeat destruct Hx as [Hx|Hx]; try discriminate; try tauto.
    + cbn. repeat split; intros k Hx; repeat destruct Hx as [<-|Hx]; try exact I; destruct Hx.
  - split; [eexists; split; [vm_compute; reflexivity|split; vm_compute; reflexivity]|].
    split; eexists; (split; [vm_compute; reflexivity|vm_compute; reflexivity]).
Qed.

(** ** C03 *)

(** The byte-level copy of any network of plain values has exactly the same node dict (labels, order, degrees, edges,
    attributes), is [==] to the original, and has no rotation system. *)
Theorem C03_copy_faithful : forall n : network val val,
  everywhere well_formed (net_val n) -> everywhere in_range (net_val n) -> everywhere plain_keys (net_val n) ->
  everywhere no_tuple (net_val n) -> height (net_val n) <= 511 ->
  exists n', net_copy n = Ok n' /\ net_nodes n' = net_nodes n /\ net_eq n' n /\ edges n' = edges n /\ net_rot n' = None.
Proof.
  intros n H1 H2 H3 H4 H5. exists (copy n). split; [apply net_copy_ok; assumption|]. split; [reflexivity|].
  split; [apply net_eq_copy|]. split; reflexivity.
Qed.
Print Assumptions C03_copy_faithful.

(** Whatever the input, a copy never carries a rotation system. *)
Theorem C03_copy_forgets_rotation : forall n n' : network val val, net_copy n = Ok n' -> net_rot n' = None.
Proof. exact net_copy_rot. Qed.
Print Assumptions C03_copy_forgets_rotation.

(** The copy is a new object: no sequence of method calls on the copy changes the original, or the other way round. *)
Theorem C03_copy_independent : forall (h : heap) (a : nat) (n : network val val) cs,
  nth_error h a = Some n ->
  everywhere well_formed (net_val n) -> everywhere in_range (net_val n) -> everywhere plain_keys (net_val n) ->
  everywhere no_tuple (net_val n) -> height (net_val n) <= 511 ->
  exists h' b, h_copy h a = Ok (h', b) /\ b <> a /\ nth_error h' a = Some n /\ nth_error h' b = Some (copy n) /\
    ((forall c, In c cs -> fst c = b) -> nth_error (h_calls h' cs) a = Some n) /\
    ((forall c, In c cs -> fst c = a) -> nth_error (h_calls h' cs) b = Some (copy n)).
Proof.
  intros h a n cs Ea H1 H2 H3 H4 H5. exists (h ++ [copy n]), (length h).
  assert (Ha : (a < length h)%nat) by (apply nth_error_Some; congruence).
  assert (Hb : nth_error (h ++ [copy n]) (length h) = Some (copy n)) by (rewrite nth_error_app2, Nat.sub_diag by lia; reflexivity).
  assert (Hn : nth_error (h ++ [copy n]) a = Some n) by (rewrite nth_error_app1 by lia; assumption).
  split; [apply h_copy_spec; assumption|]. split; [lia|]. split; [assumption|]. split; [assumption|].
  split; intros Hc; rewrite h_calls_other; try assumption; intros c Hin; rewrite (Hc c Hin); lia.
Qed.
Print Assumptions C03_copy_independent.

(** [==] cannot tell the lost rotation system: the copy equals the original though their rotation systems differ. *)
Theorem C03_copy_keeps_rotation_refuted : exists n n' : network val val, reachable n /\ net_copy n = Ok n' /\ net_eq n' n /\ net_rot n' <> net_rot n.
Proof.
  set (os := [OpAddEdge (VInt 0) (VInt 1) []; OpSetRotation [(VInt 1, [VInt 0])]] : list (op (L:=val) (V:=val))).
  let x := eval vm_compute in (fst (run_ops os empty_network)) in exists x.
  eexists. split; [exists os; vm_compute; reflexivity|]. split; [vm_compute; reflexivity|].
  split; [|discriminate]. match goal with |- net_eq ?a ?b => change a with (copy b) end. apply net_eq_copy.
Qed.
Print Assumptions C03_copy_keeps_rotation_refuted.

(** A network with a tuple label cannot be copied; one with a tuple attribute comes back with a list. *)
Theorem C03_tuple_label_refuted : exists n : network val val, reachable n /\ everywhere in_range (net_val n) /\ net_copy n = Err TypeError.
Proof.
  set (os := [OpAddNode (VTuple [VInt 0; VInt 0]) []] : list (op (L:=val) (V:=val))).
  let x := eval vm_compute in (fst (run_ops os empty_network)) in exists x.
  split; [exists os; vm_compute; reflexivity|]. split; [|vm_compute; reflexivity].
  vm_compute. repeat split; discriminate.
Qed.
Print Assumptions C03_tuple_label_refuted.

Definition copy_demo : network val val := Eval vm_compute in
  fst (run_ops [OpAddEdge (VInt 0) (VStr "b") [("weight", VFloat 0)]; OpAddEdge (VInt 0) (VStr "b") []; OpAddNode (VInt 7) [("label", VStr "q")];
                OpAddEdge (VStr "b") (VStr "b") [("w", VList [VInt 1])]] empty_network).
Example C03_nonvacuous :
  everywhere well_formed (net_val copy_demo) /\ everywhere in_range (net_val copy_demo) /\ everywhere plain_keys (net_val copy_demo) /\
  everywhere no_tuple (net_val copy_demo) /\ height (net_val copy_demo) <= 511 /\
  net_copy copy_demo = Ok copy_demo /\ length (edges copy_demo) = 3%nat.
Proof.
  split; [|split; [vm_compute; repeat split; discriminate|split; [|split; [vm_compute; tauto|split; [vm_compute; discriminate|split; vm_compute; reflexivity]]]]].
  - cbn. repeat split; try lia; repeat constructor; cbn; intros Hx; repeat destruct Hx as [Hx|Hx]; try discriminate; try tauto.
  - cbn. repeat split; intros k Hx; repeat destruct Hx as [<-|Hx]; try exact I; destruct Hx.
Qed.
