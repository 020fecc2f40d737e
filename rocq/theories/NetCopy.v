(** * Model of Network.copy, Network.compress and Network.decompress at the level of bytes
    (netomaton/state.py:159-181), over the wire format of Msgpack.v.

    Labels and attribute values are msgpack values ([val]); an attribute name is a str. *)
From Verif Require Import Py PyFacts Network NetworkSpec Msgpack MsgpackSpec MsgpackProofs.
Open Scope string_scope.
Open Scope list_scope.
Open Scope Z_scope.

Definition attrs_val (a : attrs_of val) : val := VMap (map (fun kv => (VStr (fst kv), snd kv)) a).

(** the node dict of state.py:250-251 with the extra attributes of state.py:67 *)
Definition node_val (nd : node val val) : val :=
  VMap ((VStr "in", VInt (n_in nd)) :: (VStr "out", VInt (n_out nd)) ::
        (VStr "incoming", VMap (map (fun kv => (fst kv, VList (map attrs_val (snd kv)))) (n_inc nd))) ::
        (VStr "outgoing", VList (n_outg nd)) ::
        map (fun kv => (VStr (fst kv), snd kv)) (n_attr nd)).

(** [self._network] *)
Definition net_val (n : network val val) : val := VMap (map (fun kv => (fst kv, node_val (snd kv))) (net_nodes n)).

(** state.py:162-168 *)
Definition net_compress (n : network val val) : res (list Z) := compress (net_val n).

(** reading the unpacked dicts back as nodes; a shape that is not a node dict is [Unmodelled] *)
Definition val_attrs (v : val) : res (attrs_of val) :=
  match v with
  | VMap m => rmap (fun kv => match fst kv with VStr s => Ok (s, snd kv) | _ => Err Unmodelled end) m
  | _ => Err Unmodelled
  end.
Definition val_inc (kv : val * val) : res (val * list (attrs_of val)) :=
  match snd kv with VList l => l' <- rmap val_attrs l ;; Ok (fst kv, l') | _ => Err Unmodelled end.
Definition val_node (v : val) : res (node val val) :=
  match v with
  | VMap ((VStr "in", VInt i) :: (VStr "out", VInt o) :: (VStr "incoming", VMap inc) :: (VStr "outgoing", VList outg) :: attr) =>
      inc' <- rmap val_inc inc ;; a <- val_attrs (VMap attr) ;; Ok (mkNode i o inc' outg a)
  | _ => Err Unmodelled
  end.
Definition val_nodes (v : val) : res (dict val (node val val)) :=
  match v with
  | VMap m => rmap (fun kv => nd <- val_node (snd kv) ;; Ok (fst kv, nd)) m
  | _ => Err Unmodelled
  end.

(** state.py:170-181: a new [Network()] (no rotation system) whose dict is the unpacked one *)
Definition net_decompress (bs : list Z) : res (network val val) :=
  v <- decompress bs ;; ns <- val_nodes v ;; Ok (mkNet ns None).

(** state.py:159-160 *)
Definition net_copy (n : network val val) : res (network val val) := bs <- net_compress n ;; net_decompress bs.

(** ** Networks as objects: an address is a position in the heap. [copy] allocates; a method call changes one cell. *)
Definition heap := list (network val val).
Definition h_copy (h : heap) (a : nat) : res (heap * nat) :=
  n <- of_opt Unmodelled (nth_error h a) ;; n' <- net_copy n ;; Ok (h ++ [n'], length h).
Definition h_call (h : heap) (a : nat) (o : op (L:=val) (V:=val)) : heap :=
  upd_nth h a (fun n => fst (run_op o n)).
Definition h_calls (h : heap) (cs : list (nat * op (L:=val) (V:=val))) : heap :=
  fold_left (fun h c => h_call h (fst c) (snd c)) cs h.

(** ** proofs *)

Lemma rmap_map_ok {A B C} (f : A -> B) (g : B -> res C) (h : A -> C) l :
  (forall x, In x l -> g (f x) = Ok (h x)) -> rmap g (map f l) = Ok (map h l).
Proof.
  induction l as [|x xs IH]; intros Hg; cbn; [reflexivity|]. rewrite Hg by (left; reflexivity). cbn.
  rewrite IH by (intros; apply Hg; right; assumption). reflexivity.
Qed.

Lemma map_pair_id {A B} (l : list (A * B)) : map (fun kv => (fst kv, snd kv)) l = l.
Proof. rewrite <- (map_id l) at 2. apply map_ext. intros []; reflexivity. Qed.

Lemma val_attrs_of a : val_attrs (attrs_val a) = Ok a.
Proof. unfold val_attrs, attrs_val. rewrite (rmap_map_ok _ _ (fun kv => (fst kv, snd kv))) by reflexivity. rewrite map_pair_id. reflexivity. Qed.

Lemma val_node_of nd : val_node (node_val nd) = Ok nd.
Proof.
  unfold node_val, val_node. rewrite (rmap_map_ok _ val_inc (fun kv => (fst kv, snd kv))).
  - rewrite map_pair_id. cbn [rbind]. change (VMap (map _ (n_attr nd))) with (attrs_val (n_attr nd)). rewrite val_attrs_of. destruct nd; reflexivity.
  - intros [k l] _. unfold val_inc. cbn [fst snd]. rewrite (rmap_map_ok _ val_attrs (fun x => x)) by (intros; apply val_attrs_of).
    rewrite map_id. reflexivity.
Qed.

Lemma val_nodes_of n : val_nodes (net_val n) = Ok (net_nodes n).
Proof.
  unfold val_nodes, net_val. rewrite (rmap_map_ok _ _ (fun kv => (fst kv, snd kv))).
  - rewrite map_pair_id. reflexivity.
  - intros [k nd] _. cbn [fst snd]. rewrite val_node_of. reflexivity.
Qed.

Lemma net_copy_ok n : everywhere well_formed (net_val n) -> everywhere in_range (net_val n) -> everywhere plain_keys (net_val n) ->
  everywhere no_tuple (net_val n) -> height (net_val n) <= 511 -> net_copy n = Ok (copy n).
Proof.
  intros Hwf Hr Hk Ht Hh. destruct (roundtrip _ Hwf) as (Hc & Hd & _).
  destruct (proj2 Hc (conj Hh Hr)) as [bs E]. unfold net_copy, net_compress. rewrite E. cbn [rbind].
  unfold net_decompress. rewrite (Hd bs E Hk), norm_id by assumption. cbn [rbind]. rewrite val_nodes_of. reflexivity.
Qed.

Lemma net_copy_rot n n' : net_copy n = Ok n' -> net_rot n' = None.
Proof.
  unfold net_copy, net_decompress. destruct (net_compress n) as [bs|]; [|discriminate]. cbn [rbind].
  destruct (decompress bs) as [v|]; [|discriminate]. cbn [rbind]. destruct (val_nodes v); [|discriminate]. cbn [rbind].
  intros E. injection E as <-. reflexivity.
Qed.

Lemma h_calls_other cs : forall h a, (forall c, In c cs -> fst c <> a) -> nth_error (h_calls h cs) a = nth_error h a.
Proof.
  unfold h_calls. induction cs as [|c cs IH]; intros h a Hc; [reflexivity|]. cbn [fold_left].
  rewrite IH by (intros; apply Hc; right; assumption). specialize (Hc c (or_introl eq_refl)).
  unfold h_call. rewrite nth_error_upd_nth. destruct (Nat.eq_dec a (fst c)); [congruence|reflexivity].
Qed.

Lemma h_copy_spec h a n : nth_error h a = Some n ->
  everywhere well_formed (net_val n) -> everywhere in_range (net_val n) -> everywhere plain_keys (net_val n) ->
  everywhere no_tuple (net_val n) -> height (net_val n) <= 511 ->
  h_copy h a = Ok (h ++ [copy n], length h).
Proof.
  intros Ea H1 H2 H3 H4 H5. unfold h_copy. rewrite Ea. cbn [of_opt rbind]. rewrite (net_copy_ok n H1 H2 H3 H4 H5). reflexivity.
Qed.

Lemma net_eq_copy {L V} `{EqD L} (n : network L V) : net_eq (copy n) n.
Proof.
  intros v. cbn [copy net_nodes]. destruct (dget (net_nodes n) v) as [nd|]; [|exact I].
  assert (Ha : forall a : attrs_of V, attrs_eq a a) by (intros a k; reflexivity).
  split; [reflexivity|]. split; [reflexivity|]. split; [|split; [reflexivity|apply Ha]].
  intros k. destruct (dget (n_inc nd) k) as [l|]; [|exact I]. induction l; constructor; auto.
Qed.
