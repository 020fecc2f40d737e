(** * Proofs: msgpack round trip *)
From Verif Require Import Py PyFacts ListFacts Msgpack MsgpackSpec.
From Coq Require Import Ascii.
Open Scope list_scope.
Open Scope Z_scope.

(** ** induction on values *)
Section ValInd.
  Context (P : val -> Prop)
    (HNone : P VNone) (HBool : forall b, P (VBool b)) (HInt : forall z, P (VInt z)) (HFloat : forall z, P (VFloat z))
    (HStr : forall s, P (VStr s)) (HBytes : forall s, P (VBytes s))
    (HList : forall l, Forall P l -> P (VList l)) (HTuple : forall l, Forall P l -> P (VTuple l))
    (HMap : forall m, Forall (fun kv => P (fst kv) /\ P (snd kv)) m -> P (VMap m)).
  Fixpoint val_rect' (v : val) : P v :=
    match v with
    | VNone => HNone | VBool b => HBool b | VInt z => HInt z | VFloat z => HFloat z
    | VStr s => HStr s | VBytes s => HBytes s
    | VList l => HList l ((fix go l : Forall P l := match l with [] => Forall_nil _ | x :: xs => Forall_cons _ (val_rect' x) (go xs) end) l)
    | VTuple l => HTuple l ((fix go l : Forall P l := match l with [] => Forall_nil _ | x :: xs => Forall_cons _ (val_rect' x) (go xs) end) l)
    | VMap m => HMap m ((fix go m : Forall (fun kv => P (fst kv) /\ P (snd kv)) m :=
                           match m with [] => Forall_nil _ | kv :: xs => Forall_cons kv (conj (val_rect' (fst kv)) (val_rect' (snd kv))) (go xs) end) m)
    end.
End ValInd.

Lemma val_eqb_eq v w : val_eqb v w = true <-> v = w.
Proof.
  revert w. induction v using val_rect'; intros w; destruct w; cbn; try (split; congruence).
  - destruct b, b0; cbn; split; congruence.
  - rewrite Z.eqb_eq. split; congruence.
  - rewrite Z.eqb_eq. split; congruence.
  - rewrite String.eqb_eq. split; congruence.
  - rewrite String.eqb_eq. split; congruence.
  - transitivity (l = l0); [|split; congruence]. revert l0. induction H as [|x xs Hx Hxs IH]; intros [|y ys]; try (split; congruence).
    rewrite andb_true_iff, Hx, IH. split; [intros [-> ->]; reflexivity|]. intros E. injection E as -> ->. auto.
  - transitivity (l = l0); [|split; congruence]. revert l0. induction H as [|x xs Hx Hxs IH]; intros [|y ys]; try (split; congruence).
    rewrite andb_true_iff, Hx, IH. split; [intros [-> ->]; reflexivity|]. intros E. injection E as -> ->. auto.
  - transitivity (m = m0); [|split; congruence]. revert m0. induction H as [|[k x] xs [Hk Hx] Hxs IH]; intros [|[k' y] ys]; try (split; congruence).
    cbn [fst snd] in *. rewrite !andb_true_iff, Hk, Hx, IH. split; [intros (-> & -> & ->); reflexivity|]. intros E. injection E as -> -> ->. auto.
Qed.

#[export] Instance EqD_val : EqD val.
Proof. intros v w. destruct (val_eqb v w) eqn:E; [left; apply val_eqb_eq; assumption|right; intros ->; assert (val_eqb w w = true) by (apply val_eqb_eq; reflexivity); congruence]. Defined.

Lemma vset_new d k v : ~ In k (map fst d) -> vset d k v = d ++ [(k, v)].
Proof.
  induction d as [|[k' v'] d IH]; cbn; intros Hn; [reflexivity|]. destruct (val_eqb k k') eqn:E.
  - apply val_eqb_eq in E. subst. exfalso. apply Hn. left. reflexivity.
  - rewrite IH; [reflexivity|]. tauto.
Qed.

(** ** bytes *)
Lemma length_be k z : length (be k z) = k.
Proof. revert z. induction k as [|k IH]; intros z; cbn [be]; [reflexivity|]. rewrite app_length, IH. cbn. lia. Qed.

Lemma unbe_be k z : 0 <= z < 256 ^ Z.of_nat k -> unbe (be k z) = z.
Proof.
  revert z. induction k as [|k IH]; intros z Hz; cbn [be].
  - change (256 ^ Z.of_nat 0) with 1 in Hz. unfold unbe. cbn. lia.
  - unfold unbe in *. rewrite fold_left_app, IH.
    + cbn [fold_left]. rewrite (Z.div_mod z 256) at 3 by lia. lia.
    + rewrite Nat2Z.inj_succ, Z.pow_succ_r in Hz by lia. split; [apply Z.div_pos; lia|apply Z.div_lt_upper_bound; lia].
Qed.

Lemma be_bytes k z : Forall (fun b => 0 <= b < 256) (be k z).
Proof.
  revert z. induction k as [|k IH]; intros z; cbn [be]; [constructor|]. apply Forall_app. split; [apply IH|].
  constructor; [apply Z.mod_pos_bound; lia|constructor].
Qed.

Lemma take_app a b n : length a = n -> take n (a ++ b) = Ok (a, b).
Proof.
  intros <-. unfold take. rewrite app_length. destruct (Nat.leb_spec (length a) (length a + length b)); [|lia].
  rewrite firstn_app, Nat.sub_diag, firstn_all, skipn_app, Nat.sub_diag, skipn_all. cbn. rewrite app_nil_r. reflexivity.
Qed.

Lemma num_be k z rest : 0 <= z < 256 ^ Z.of_nat k -> num k (be k z ++ rest) = Ok (z, rest).
Proof. intros Hz. unfold num. rewrite take_app by apply length_be. cbn [rbind]. rewrite unbe_be by assumption. reflexivity. Qed.

Lemma string_bytes s : string_of_bytes (bytes_of_string s) = s.
Proof.
  unfold string_of_bytes, bytes_of_string. rewrite map_map. rewrite <- (string_of_list_ascii_of_string s) at 2. f_equal.
  rewrite <- (map_id (list_ascii_of_string s)) at 2. apply map_ext. intros c. rewrite N2Z.id. apply ascii_N_embedding.
Qed.

Lemma length_bytes s : length (bytes_of_string s) = String.length s.
Proof. unfold bytes_of_string. rewrite map_length. induction s; cbn; congruence. Qed.

(** ** one header byte at a time *)
#[global] Arguments be : simpl never.
#[global] Arguments num : simpl never.
Ltac step_head := cbn [app unpack_at]; cbv beta iota zeta delta [Z.ltb Z.leb Z.eqb Z.compare Pos.compare Pos.compare_cont Pos.eqb].

Lemma unpack_int z bs f rest : pack_int z = Ok bs -> unpack_at (S f) (bs ++ rest) = Ok (VInt z, rest).
Proof.
  unfold pack_int. destruct (Z.leb_spec 0 z).
  - destruct (Z.ltb_spec z 128); [intros E; injection E as <-; cbn [app unpack_at]; destruct (Z.ltb_spec z 128); [reflexivity|lia]|].
    destruct (Z.ltb_spec z 256); [intros E; apply (f_equal (fun r => match r with Ok x => x | Err _ => [] end)) in E; cbv iota beta in E; subst; step_head; rewrite num_be by lia; reflexivity|].
    destruct (Z.ltb_spec z (2 ^ 16)); [intros E; apply (f_equal (fun r => match r with Ok x => x | Err _ => [] end)) in E; cbv iota beta in E; subst; step_head; rewrite num_be by lia; reflexivity|].
    destruct (Z.ltb_spec z (2 ^ 32)); [intros E; apply (f_equal (fun r => match r with Ok x => x | Err _ => [] end)) in E; cbv iota beta in E; subst; step_head; rewrite num_be by lia; reflexivity|].
    destruct (Z.ltb_spec z (2 ^ 64)); [intros E; apply (f_equal (fun r => match r with Ok x => x | Err _ => [] end)) in E; cbv iota beta in E; subst; step_head; rewrite num_be by lia; reflexivity|discriminate].
  - destruct (Z.leb_spec (-32) z).
    { intros E; injection E as <-. cbn [app unpack_at]. destruct (Z.ltb_spec (z + 256) 128); [lia|]. destruct (Z.ltb_spec (z + 256) 144); [lia|].
      destruct (Z.ltb_spec (z + 256) 160); [lia|]. destruct (Z.ltb_spec (z + 256) 192); [lia|]. destruct (Z.leb_spec 224 (z + 256)); [|lia].
      repeat f_equal. lia. }
    destruct (Z.leb_spec (-128) z); [intros E; apply (f_equal (fun r => match r with Ok x => x | Err _ => [] end)) in E; cbv iota beta in E; subst; step_head; rewrite num_be by lia; cbn [rbind]; unfold signed; destruct (Z.ltb_spec (z + 2 ^ 8) (2 ^ (8 - 1))); [lia|]; repeat f_equal; lia|].
    destruct (Z.leb_spec (- 2 ^ 15) z); [intros E; apply (f_equal (fun r => match r with Ok x => x | Err _ => [] end)) in E; cbv iota beta in E; subst; step_head; rewrite num_be by lia; cbn [rbind]; unfold signed; destruct (Z.ltb_spec (z + 2 ^ 16) (2 ^ (16 - 1))); [lia|]; repeat f_equal; lia|].
    destruct (Z.leb_spec (- 2 ^ 31) z); [intros E; apply (f_equal (fun r => match r with Ok x => x | Err _ => [] end)) in E; cbv iota beta in E; subst; step_head; rewrite num_be by lia; cbn [rbind]; unfold signed; destruct (Z.ltb_spec (z + 2 ^ 32) (2 ^ (32 - 1))); [lia|]; repeat f_equal; lia|].
    destruct (Z.leb_spec (- 2 ^ 63) z); [intros E; apply (f_equal (fun r => match r with Ok x => x | Err _ => [] end)) in E; cbv iota beta in E; subst; step_head; rewrite num_be by lia; cbn [rbind]; unfold signed; destruct (Z.ltb_spec (z + 2 ^ 64) (2 ^ (64 - 1))); [lia|]; repeat f_equal; lia|discriminate].
Qed.

Lemma pack_int_iff z : (exists bs, pack_int z = Ok bs) <-> - 2 ^ 63 <= z < 2 ^ 64.
Proof.
  unfold pack_int. split.
  - intros [bs E]. destruct (Z.leb_spec 0 z).
    + destruct (Z.ltb_spec z 128); [lia|]. destruct (Z.ltb_spec z 256); [lia|]. destruct (Z.ltb_spec z (2 ^ 16)); [lia|].
      destruct (Z.ltb_spec z (2 ^ 32)); [lia|]. destruct (Z.ltb_spec z (2 ^ 64)); [lia|discriminate].
    + destruct (Z.leb_spec (-32) z); [lia|]. destruct (Z.leb_spec (-128) z); [lia|]. destruct (Z.leb_spec (- 2 ^ 15) z); [lia|].
      destruct (Z.leb_spec (- 2 ^ 31) z); [lia|]. destruct (Z.leb_spec (- 2 ^ 63) z); [lia|discriminate].
  - intros Hz. destruct (0 <=? z).
    + destruct (z <? 128); [eauto|]. destruct (z <? 256); [eauto|]. destruct (z <? 2 ^ 16); [eauto|]. destruct (z <? 2 ^ 32); [eauto|].
      destruct (Z.ltb_spec z (2 ^ 64)); [eauto|lia].
    + destruct (-32 <=? z); [eauto|]. destruct (-128 <=? z); [eauto|]. destruct (- 2 ^ 15 <=? z); [eauto|]. destruct (- 2 ^ 31 <=? z); [eauto|].
      destruct (Z.leb_spec (- 2 ^ 63) z); [eauto|lia].
Qed.

Lemma pack_int_err z : ~ (- 2 ^ 63 <= z < 2 ^ 64) -> pack_int z = Err OverflowError.
Proof.
  intros Hz. destruct (pack_int z) as [bs|e] eqn:E; [exfalso; apply Hz, pack_int_iff; eauto|].
  unfold pack_int in E. destruct (0 <=? z).
  - destruct (z <? 128); [discriminate|]. destruct (z <? 256); [discriminate|]. destruct (z <? 2 ^ 16); [discriminate|].
    destruct (z <? 2 ^ 32); [discriminate|]. destruct (z <? 2 ^ 64); [discriminate|congruence].
  - destruct (-32 <=? z); [discriminate|]. destruct (-128 <=? z); [discriminate|]. destruct (- 2 ^ 15 <=? z); [discriminate|].
    destruct (- 2 ^ 31 <=? z); [discriminate|]. destruct (- 2 ^ 63 <=? z); [discriminate|congruence].
Qed.

Lemma header_iff (f : Z -> res (list Z)) n :
  f = pack_str_header \/ f = pack_bin_header \/ f = pack_array_header \/ f = pack_map_header -> 
  (exists h, f n = Ok h) <-> n < 2 ^ 32.
Proof.
  intros Hf. split.
  - intros [h E]. destruct Hf as [->|[->|[->| ->]]]; unfold pack_str_header, pack_bin_header, pack_array_header, pack_map_header in E;
      repeat match type of E with context[?a <? ?b] => destruct (Z.ltb_spec a b); [lia|] end; discriminate.
  - intros Hn. destruct Hf as [->|[->|[->| ->]]]; unfold pack_str_header, pack_bin_header, pack_array_header, pack_map_header;
      repeat match goal with |- context[?a <? ?b] => destruct (Z.ltb_spec a b); [eauto|] end; lia.
Qed.

Lemma unpack_str n h f body : 0 <= n -> pack_str_header n = Ok h -> unpack_at (S f) (h ++ body) = str_of n body.
Proof.
  intros Hn. unfold pack_str_header. destruct (Z.ltb_spec n 32).
  - intros E; injection E as <-. cbn [app unpack_at]. destruct (Z.ltb_spec (160 + n) 128); [lia|]. destruct (Z.ltb_spec (160 + n) 144); [lia|].
    destruct (Z.ltb_spec (160 + n) 160); [lia|]. destruct (Z.ltb_spec (160 + n) 192); [|lia]. f_equal. lia.
  - destruct (Z.ltb_spec n (2 ^ 8)); [intros E; apply (f_equal (fun r => match r with Ok x => x | Err _ => [] end)) in E; cbv iota beta in E; subst; step_head; rewrite num_be by lia; reflexivity|].
    destruct (Z.ltb_spec n (2 ^ 16)); [intros E; apply (f_equal (fun r => match r with Ok x => x | Err _ => [] end)) in E; cbv iota beta in E; subst; step_head; rewrite num_be by lia; reflexivity|].
    destruct (Z.ltb_spec n (2 ^ 32)); [intros E; apply (f_equal (fun r => match r with Ok x => x | Err _ => [] end)) in E; cbv iota beta in E; subst; step_head; rewrite num_be by lia; reflexivity|discriminate].
Qed.

Lemma unpack_bin n h f body : 0 <= n -> pack_bin_header n = Ok h -> unpack_at (S f) (h ++ body) = bin_of n body.
Proof.
  intros Hn. unfold pack_bin_header.
  destruct (Z.ltb_spec n (2 ^ 8)); [intros E; apply (f_equal (fun r => match r with Ok x => x | Err _ => [] end)) in E; cbv iota beta in E; subst; step_head; rewrite num_be by lia; reflexivity|].
  destruct (Z.ltb_spec n (2 ^ 16)); [intros E; apply (f_equal (fun r => match r with Ok x => x | Err _ => [] end)) in E; cbv iota beta in E; subst; step_head; rewrite num_be by lia; reflexivity|].
  destruct (Z.ltb_spec n (2 ^ 32)); [intros E; apply (f_equal (fun r => match r with Ok x => x | Err _ => [] end)) in E; cbv iota beta in E; subst; step_head; rewrite num_be by lia; reflexivity|discriminate].
Qed.

Lemma unpack_array n h f body : 0 <= n -> pack_array_header n = Ok h -> unpack_at (S f) (h ++ body) = list_of (unpack_at f) n body.
Proof.
  intros Hn. unfold pack_array_header. destruct (Z.ltb_spec n 16).
  - intros E; injection E as <-. cbn [app unpack_at]. destruct (Z.ltb_spec (144 + n) 128); [lia|]. destruct (Z.ltb_spec (144 + n) 144); [lia|].
    destruct (Z.ltb_spec (144 + n) 160); [|lia]. f_equal. lia.
  - destruct (Z.ltb_spec n (2 ^ 16)); [intros E; apply (f_equal (fun r => match r with Ok x => x | Err _ => [] end)) in E; cbv iota beta in E; subst; step_head; rewrite num_be by lia; reflexivity|].
    destruct (Z.ltb_spec n (2 ^ 32)); [intros E; apply (f_equal (fun r => match r with Ok x => x | Err _ => [] end)) in E; cbv iota beta in E; subst; step_head; rewrite num_be by lia; reflexivity|discriminate].
Qed.

Lemma unpack_map n h f body : 0 <= n -> pack_map_header n = Ok h -> unpack_at (S f) (h ++ body) = map_of (unpack_at f) n body.
Proof.
  intros Hn. unfold pack_map_header. destruct (Z.ltb_spec n 16).
  - intros E; injection E as <-. cbn [app unpack_at]. destruct (Z.ltb_spec (128 + n) 128); [lia|]. destruct (Z.ltb_spec (128 + n) 144); [|lia].
    f_equal. lia.
  - destruct (Z.ltb_spec n (2 ^ 16)); [intros E; apply (f_equal (fun r => match r with Ok x => x | Err _ => [] end)) in E; cbv iota beta in E; subst; step_head; rewrite num_be by lia; reflexivity|].
    destruct (Z.ltb_spec n (2 ^ 32)); [intros E; apply (f_equal (fun r => match r with Ok x => x | Err _ => [] end)) in E; cbv iota beta in E; subst; step_head; rewrite num_be by lia; reflexivity|discriminate].
Qed.

(** ** the round trip *)

Definition keyb (k : val) : bool := match k with VList _ | VTuple _ | VMap _ => false | _ => true end.

Fixpoint keys_ok (v : val) : bool :=
  match v with
  | VList l | VTuple l => forallb keys_ok l
  | VMap m => forallb (fun kv => keyb (fst kv) && (keys_ok (fst kv) && keys_ok (snd kv))) m
  | _ => true
  end.

Lemma hashable_norm k : hashable (tuples_to_lists k) = keyb k.
Proof. destruct k; reflexivity. Qed.
Lemma key_norm k : keyb k = true -> tuples_to_lists k = k.
Proof. destruct k; cbn; congruence. Qed.

Lemma fold_and_Forall {A} (P : A -> Prop) l : fold_right and True (map P l) <-> Forall P l.
Proof. induction l as [|x xs IH]; cbn; [split; auto|]. rewrite IH, Forall_cons_iff. reflexivity. Qed.

Lemma fold_max_le {A} (f : A -> Z) l b : -1 <= b -> (fold_right Z.max (-1) (map f l) <= b <-> Forall (fun x => f x <= b) l).
Proof.
  intros Hb. induction l as [|x xs IH]; cbn; [split; auto|]. rewrite Z.max_lub_iff, IH, Forall_cons_iff. reflexivity.
Qed.

Lemma fold_max_ge l : -1 <= fold_right Z.max (-1) l.
Proof. induction l; cbn; lia. Qed.

Lemma height_nonneg v : 0 <= height v.
Proof. destruct v; cbn [height]; try lia; [pose proof (fold_max_ge (map height l))|pose proof (fold_max_ge (map height l))|
  pose proof (fold_max_ge (map (fun kv => Z.max (height (fst kv)) (height (snd kv))) m))]; lia. Qed.

Definition reads (v : val) (bs : list Z) : Prop := forall fuel rest, height v < Z.of_nat fuel ->
  unpack_at fuel (bs ++ rest) = if keys_ok v then Ok (tuples_to_lists v, rest) else Err TypeError.

Lemma items_reads l bss f rest : Forall2 reads l bss -> Forall (fun v => height v < Z.of_nat f) l ->
  items (unpack_at f) (length l) (concat bss ++ rest) =
    if forallb keys_ok l then Ok (map tuples_to_lists l, rest) else Err TypeError.
Proof.
  intros H2. revert rest. induction H2 as [|v bs l bss Hv Hl IH]; intros rest Hh; cbn [length items concat forallb map]; [reflexivity|].
  inversion Hh; subst. rewrite <- app_assoc, Hv by assumption. destruct (keys_ok v); [|reflexivity]. cbn [rbind andb].
  rewrite IH by assumption. destruct (forallb keys_ok l); reflexivity.
Qed.

Definition reads2 (kv : val * val) (bs : list Z) : Prop := exists b1 b2, bs = b1 ++ b2 /\ reads (fst kv) b1 /\ reads (snd kv) b2.

Lemma pairs_reads m bss f rest d : Forall2 reads2 m bss -> Forall (fun kv => Z.max (height (fst kv)) (height (snd kv)) < Z.of_nat f) m ->
  NoDup (map fst d ++ map fst m) ->
  pairs (unpack_at f) (length m) d (concat bss ++ rest) =
    if forallb (fun kv => keyb (fst kv) && (keys_ok (fst kv) && keys_ok (snd kv))) m
    then Ok (d ++ map (fun kv => (tuples_to_lists (fst kv), tuples_to_lists (snd kv))) m, rest) else Err TypeError.
Proof.
  intros H2. revert d. induction H2 as [|[k v] bs m bss Hkv Hm IH]; intros d Hh Hnd; cbn [length pairs concat forallb map fst snd].
  - rewrite app_nil_r. reflexivity.
  - inversion Hh; subst. cbn [fst snd] in *. destruct Hkv as (b1 & b2 & -> & Hk & Hv). cbn [fst snd] in *.
    rewrite <- !app_assoc, Hk by lia. destruct (keys_ok k) eqn:E1; [|rewrite andb_false_r; reflexivity]. cbn [rbind].
    rewrite Hv by lia. destruct (keys_ok v) eqn:E2; [|rewrite andb_false_r; reflexivity]. cbn [rbind].
    rewrite hashable_norm. destruct (keyb k) eqn:E3; [|reflexivity]. cbn [andb].
    rewrite key_norm by assumption. rewrite vset_new.
    + rewrite IH; [rewrite <- app_assoc; reflexivity|assumption|]. rewrite map_app, <- app_assoc. assumption.
    + intros Hin. cbn [map fst] in Hnd. apply NoDup_remove_2 in Hnd. apply Hnd. apply in_or_app. left. assumption.
Qed.

Lemma rmap_Forall2 {A B} (f : A -> res B) l bs : rmap f l = Ok bs -> Forall2 (fun x b => f x = Ok b) l bs.
Proof.
  revert bs. induction l as [|x xs IH]; cbn; intros bs E; [injection E as <-; constructor|].
  destruct (f x) as [y|] eqn:Ef; [|discriminate]. cbn in E. destruct (rmap f xs) as [ys|]; [|discriminate]. cbn in E. injection E as <-.
  constructor; [assumption|]. apply IH. reflexivity.
Qed.

Lemma Forall2_impl_l {A B} (P : A -> Prop) (Q T : A -> B -> Prop) l l' : Forall P l -> Forall2 Q l l' ->
  (forall x y, P x -> Q x y -> T x y) -> Forall2 T l l'.
Proof. intros HP HQ Hi. induction HQ; constructor; inversion HP; subst; auto. Qed.

Lemma pack_reads v : everywhere well_formed v -> forall lim bs, pack_at lim v = Ok bs -> height v <= lim /\ reads v bs.
Proof.
  induction v using val_rect'; intros Hwf lim bs E; cbn [pack_at] in E; destruct (Z.ltb_spec lim 0) as [Hl|Hl]; try discriminate.
  - injection E as <-. split; [assumption|]. intros [|f] rest Hh; [cbn in Hh; lia|]. reflexivity.
  - split; [assumption|]. intros [|f] rest Hh; [cbn in Hh; lia|]. destruct b; injection E as <-; reflexivity.
  - split; [assumption|]. intros [|f] rest Hh; [cbn in Hh; lia|]. cbn [keys_ok tuples_to_lists]. apply unpack_int. assumption.
  - split; [assumption|]. intros [|f] rest Hh; [cbn in Hh; lia|]. cbn [keys_ok tuples_to_lists].
    destruct Hwf as [Hf _]. cbn in Hf. apply (f_equal (fun r => match r with Ok x => x | Err _ => [] end)) in E. cbv iota beta in E. subst.
    step_head. rewrite num_be by lia. reflexivity.
  - split; [assumption|]. intros [|f] rest Hh; [cbn in Hh; lia|]. cbn [keys_ok tuples_to_lists].
    destruct (pack_str_header (Z.of_nat (String.length s))) as [h|] eqn:Eh; [|discriminate]. cbn [rbind] in E. injection E as <-.
    rewrite <- app_assoc, (unpack_str _ _ _ _ (Nat2Z.is_nonneg _) Eh). unfold str_of. rewrite Nat2Z.id, take_app by apply length_bytes.
    cbn [rbind]. rewrite string_bytes. reflexivity.
  - split; [assumption|]. intros [|f] rest Hh; [cbn in Hh; lia|]. cbn [keys_ok tuples_to_lists].
    destruct (pack_bin_header (Z.of_nat (String.length s))) as [h|] eqn:Eh; [|discriminate]. cbn [rbind] in E. injection E as <-.
    rewrite <- app_assoc, (unpack_bin _ _ _ _ (Nat2Z.is_nonneg _) Eh). unfold bin_of. rewrite Nat2Z.id, take_app by apply length_bytes.
    cbn [rbind]. rewrite string_bytes. reflexivity.
  - destruct Hwf as [_ Hwf]. cbn beta iota in Hwf. apply fold_and_Forall in Hwf.
    destruct (pack_array_header (Z.of_nat (length l))) as [h|] eqn:Eh; [|discriminate]. cbn [rbind] in E.
    destruct (rmap (pack_at (lim - 1)) l) as [bss|] eqn:Eb; [|discriminate]. cbn [rbind] in E. injection E as <-.
    apply rmap_Forall2 in Eb.
    assert (Hall : Forall2 (fun v b => height v <= lim - 1 /\ reads v b) l bss).
    { apply (Forall2_impl_l _ _ _ _ _ (proj2 (Forall_forall _ _) (fun x Hx => conj (proj1 (Forall_forall _ _) H x Hx) (proj1 (Forall_forall _ _) Hwf x Hx))) Eb).
      intros x y [IHx Hx] Ex. apply IHx; assumption. }
    assert (Hh : Forall (fun v => height v <= lim - 1) l) by (clear - Hall; induction Hall; constructor; tauto).
    split.
    + cbn [height]. apply fold_max_le in Hh; [|lia]. lia.
    + intros [|f] rest Hf; [cbn [height] in Hf; pose proof (fold_max_ge (map height l)); lia|]. cbn [keys_ok tuples_to_lists].
      rewrite <- app_assoc, (unpack_array _ _ _ _ (Nat2Z.is_nonneg _) Eh). unfold list_of. rewrite Nat2Z.id, items_reads.
      * destruct (forallb keys_ok l); reflexivity.
      * clear - Hall. induction Hall; constructor; tauto.
      * cbn [height] in Hf. assert (Hm : fold_right Z.max (-1) (map height l) <= Z.of_nat f - 1) by lia.
        apply fold_max_le in Hm; [|lia]. eapply Forall_impl; [|exact Hm]. cbn. intros; lia.
  - destruct Hwf as [_ Hwf]. cbn beta iota in Hwf. apply fold_and_Forall in Hwf.
    destruct (pack_array_header (Z.of_nat (length l))) as [h|] eqn:Eh; [|discriminate]. cbn [rbind] in E.
    destruct (rmap (pack_at (lim - 1)) l) as [bss|] eqn:Eb; [|discriminate]. cbn [rbind] in E. injection E as <-.
    apply rmap_Forall2 in Eb.
    assert (Hall : Forall2 (fun v b => height v <= lim - 1 /\ reads v b) l bss).
    { apply (Forall2_impl_l _ _ _ _ _ (proj2 (Forall_forall _ _) (fun x Hx => conj (proj1 (Forall_forall _ _) H x Hx) (proj1 (Forall_forall _ _) Hwf x Hx))) Eb).
      intros x y [IHx Hx] Ex. apply IHx; assumption. }
    assert (Hh : Forall (fun v => height v <= lim - 1) l) by (clear - Hall; induction Hall; constructor; tauto).
    split.
    + cbn [height]. apply fold_max_le in Hh; [|lia]. lia.
    + intros [|f] rest Hf; [cbn [height] in Hf; pose proof (fold_max_ge (map height l)); lia|]. cbn [keys_ok tuples_to_lists].
      rewrite <- app_assoc, (unpack_array _ _ _ _ (Nat2Z.is_nonneg _) Eh). unfold list_of. rewrite Nat2Z.id, items_reads.
      * destruct (forallb keys_ok l); reflexivity.
      * clear - Hall. induction Hall; constructor; tauto.
      * cbn [height] in Hf. assert (Hm : fold_right Z.max (-1) (map height l) <= Z.of_nat f - 1) by lia.
        apply fold_max_le in Hm; [|lia]. eapply Forall_impl; [|exact Hm]. cbn. intros; lia.
  - destruct Hwf as [Hnd Hwf]. cbn beta iota in Hwf, Hnd. apply (fold_and_Forall (fun kv => everywhere well_formed (fst kv) /\ everywhere well_formed (snd kv))) in Hwf.
    destruct (pack_map_header (Z.of_nat (length m))) as [h|] eqn:Eh; [|discriminate]. cbn [rbind] in E.
    match type of E with context[rmap ?g m] => destruct (rmap g m) as [bss|] eqn:Eb end; [|discriminate]. cbn [rbind] in E. injection E as <-.
    apply rmap_Forall2 in Eb.
    assert (Hall : Forall2 (fun kv b => Z.max (height (fst kv)) (height (snd kv)) <= lim - 1 /\ reads2 kv b) m bss).
    { apply (Forall2_impl_l _ _ _ _ _ (proj2 (Forall_forall _ _) (fun x Hx => conj (proj1 (Forall_forall _ _) H x Hx) (proj1 (Forall_forall _ _) Hwf x Hx))) Eb).
      intros [k x] y [[IHk IHx] [Hk Hx]] Ex. cbn [fst snd] in *.
      destruct (pack_at (lim - 1) k) as [b1|] eqn:E1; [|discriminate]. cbn [rbind] in Ex.
      destruct (pack_at (lim - 1) x) as [b2|] eqn:E2; [|discriminate]. cbn [rbind] in Ex. injection Ex as <-.
      destruct (IHk Hk _ _ E1), (IHx Hx _ _ E2). split; [lia|]. exists b1, b2. auto. }
    assert (Hh : Forall (fun kv => Z.max (height (fst kv)) (height (snd kv)) <= lim - 1) m) by (clear - Hall; induction Hall; constructor; tauto).
    split.
    + cbn [height]. apply fold_max_le in Hh; [|lia]. lia.
    + intros [|f] rest Hf; [cbn [height] in Hf; pose proof (fold_max_ge (map (fun kv => Z.max (height (fst kv)) (height (snd kv))) m)); lia|]. cbn [keys_ok tuples_to_lists].
      rewrite <- app_assoc, (unpack_map _ _ _ _ (Nat2Z.is_nonneg _) Eh). unfold map_of. rewrite Nat2Z.id, pairs_reads.
      * match goal with |- context[if ?c then _ else _] => destruct c end; reflexivity.
      * clear - Hall. induction Hall; constructor; tauto.
      * cbn [height] in Hf. assert (Hm : fold_right Z.max (-1) (map (fun kv => Z.max (height (fst kv)) (height (snd kv))) m) <= Z.of_nat f - 1) by lia.
        apply fold_max_le in Hm; [|lia]. eapply Forall_impl; [|exact Hm]. cbn. intros; lia.
      * assumption.
Qed.

Lemma rmap_ok_iff {A B} (f : A -> res B) l : (exists bs, rmap f l = Ok bs) <-> Forall (fun x => exists b, f x = Ok b) l.
Proof.
  induction l as [|x xs IH]; cbn; [split; eauto|]. rewrite Forall_cons_iff, <- IH. split.
  - intros [bs E]. destruct (f x) as [y|]; [|discriminate]. cbn in E. destruct (rmap f xs) as [ys|]; [|discriminate]. eauto.
  - intros [[y ->] [ys ->]]. cbn. eauto.
Qed.

Lemma rbind_ok_iff {A B} (m : res A) (k : A -> res B) : (exists b, rbind m k = Ok b) <-> exists a, m = Ok a /\ exists b, k a = Ok b.
Proof.
  destruct m as [a|e]; cbn; split.
  - intros [b E]. eauto.
  - intros (a' & E & b & Eb). injection E as <-. eauto.
  - intros [b E]. discriminate.
  - intros (a' & E & _). discriminate.
Qed.

Lemma Forall_and_iff {A} (P Q : A -> Prop) l : Forall (fun x => P x /\ Q x) l <-> Forall P l /\ Forall Q l.
Proof. rewrite !Forall_forall. firstorder. Qed.

Lemma Forall_iff_in {A} (P Q : A -> Prop) l : (forall x, In x l -> (P x <-> Q x)) -> Forall P l <-> Forall Q l.
Proof. intros Hpq. rewrite !Forall_forall. split; intros Hf x Hx; specialize (Hf x Hx); specialize (Hpq x Hx); tauto. Qed.

Lemma pack_iff v : forall lim, (exists bs, pack_at lim v = Ok bs) <-> height v <= lim /\ everywhere in_range v.
Proof.
  assert (Hneg : forall lim (w : val), lim < 0 -> height w <= lim /\ everywhere in_range w -> False).
  { intros lim w Hl [Hh _]. pose proof (height_nonneg w). lia. }
  assert (Harr : forall l lim, Forall (fun v => forall lim, (exists bs, pack_at lim v = Ok bs) <-> height v <= lim /\ everywhere in_range v) l -> 0 <= lim ->
     ((exists bs, rbind (pack_array_header (Z.of_nat (length l))) (fun h => rbind (rmap (pack_at (lim - 1)) l) (fun bss => Ok (h ++ concat bss))) = Ok bs)
      <-> 1 + fold_right Z.max (-1) (map height l) <= lim /\ Z.of_nat (length l) < 2 ^ 32 /\ fold_right and True (map (everywhere in_range) l))).
  { intros l lim Hl Hlim. rewrite rbind_ok_iff, fold_and_Forall.
    assert (E1 : 1 + fold_right Z.max (-1) (map height l) <= lim <-> Forall (fun v => height v <= lim - 1) l) by (rewrite <- fold_max_le; lia).
    rewrite E1. rewrite <- (header_iff pack_array_header (Z.of_nat (length l)) ltac:(auto)).
    assert (E2 : (exists bss, rmap (pack_at (lim - 1)) l = Ok bss) <-> Forall (fun v => height v <= lim - 1) l /\ Forall (everywhere in_range) l).
    { rewrite rmap_ok_iff, <- Forall_and_iff. apply Forall_iff_in. intros x Hx. apply (proj1 (Forall_forall _ _) Hl x Hx). }
    split.
    - intros (h & Eh & Hb). apply rbind_ok_iff in Hb. destruct Hb as (bss & Eb & _).
      destruct (proj1 E2 (ex_intro _ bss Eb)). eauto.
    - intros (H1 & [h Eh] & H2). exists h. split; [assumption|]. apply rbind_ok_iff.
      destruct (proj2 E2 (conj H1 H2)) as [bss Eb]. exists bss. split; [assumption|]. eauto. }
  induction v using val_rect'; intros lim; cbn [pack_at]; destruct (Z.ltb_spec lim 0) as [Hl|Hl];
    try (split; [intros [bs E]; discriminate|intros Hc; exfalso; exact (Hneg _ _ Hl Hc)]).
  - cbn. split; [intros _; tauto|eauto].
  - cbn. split; [intros _; tauto|]. intros _. destruct b; eauto.
  - cbn [height everywhere in_range]. rewrite pack_int_iff. tauto.
  - cbn. split; [intros _; tauto|eauto].
  - cbn [height everywhere in_range]. rewrite rbind_ok_iff. rewrite <- (header_iff pack_str_header (Z.of_nat (String.length s)) ltac:(auto)).
    split; [intros (h & Eh & _); eauto|]. intros (_ & [h Eh] & _). eauto.
  - cbn [height everywhere in_range]. rewrite rbind_ok_iff. rewrite <- (header_iff pack_bin_header (Z.of_nat (String.length s)) ltac:(auto)).
    split; [intros (h & Eh & _); eauto|]. intros (_ & [h Eh] & _). eauto.
  - rewrite (Harr l lim H Hl). reflexivity.
  - rewrite (Harr l lim H Hl). reflexivity.
  - cbn [height everywhere in_range]. rewrite rbind_ok_iff, (fold_and_Forall (fun kv => everywhere in_range (fst kv) /\ everywhere in_range (snd kv))).
    assert (E1 : 1 + fold_right Z.max (-1) (map (fun kv => Z.max (height (fst kv)) (height (snd kv))) m) <= lim <->
       Forall (fun kv => Z.max (height (fst kv)) (height (snd kv)) <= lim - 1) m) by (rewrite <- fold_max_le; lia).
    rewrite E1. rewrite <- (header_iff pack_map_header (Z.of_nat (length m)) ltac:(auto)).
    set (g := fun kv => rbind (pack_at (lim - 1) (fst kv)) (fun kb => rbind (pack_at (lim - 1) (snd kv)) (fun vb => Ok (kb ++ vb)))).
    assert (E2 : (exists bss, rmap g m = Ok bss) <-> Forall (fun kv => Z.max (height (fst kv)) (height (snd kv)) <= lim - 1) m /\
                  Forall (fun kv => everywhere in_range (fst kv) /\ everywhere in_range (snd kv)) m).
    { rewrite rmap_ok_iff, <- Forall_and_iff. apply Forall_iff_in. intros [k x] Hx. destruct (proj1 (Forall_forall _ _) H _ Hx) as [Hk Hv].
      cbn [fst snd] in *. unfold g. cbn [fst snd]. rewrite rbind_ok_iff. split.
      - intros (b1 & E & Hb). apply rbind_ok_iff in Hb. destruct Hb as (b2 & E' & _).
        destruct (proj1 (Hk _) (ex_intro _ b1 E)), (proj1 (Hv _) (ex_intro _ b2 E')). split; [lia|]. split; assumption.
      - intros (Hmx & H1 & H2). destruct (proj2 (Hk (lim - 1)) ltac:(split; [lia|assumption])) as [b1 ->].
        destruct (proj2 (Hv (lim - 1)) ltac:(split; [lia|assumption])) as [b2 ->]. exists b1. cbn. eauto. }
    split.
    + intros (h & Eh & Hb). apply rbind_ok_iff in Hb. destruct Hb as (bss & Eb & _).
      destruct (proj1 E2 (ex_intro _ bss Eb)). eauto.
    + intros (H1 & [h Eh] & H2). exists h. split; [assumption|]. apply rbind_ok_iff.
      destruct (proj2 E2 (conj H1 H2)) as [bss Eb]. exists bss. split; [assumption|]. eauto.
Qed.

Lemma keys_ok_iff v : keys_ok v = true <-> everywhere plain_keys v.
Proof.
  induction v using val_rect'; cbn [keys_ok everywhere plain_keys]; try tauto.
  - rewrite forallb_forall, fold_and_Forall, Forall_forall. rewrite Forall_forall in H.
    split; [intros Hk; split; [exact I|]; intros x Hx; apply H; auto|]. intros [_ Hk] x Hx. apply H; auto.
  - rewrite forallb_forall, fold_and_Forall, Forall_forall. rewrite Forall_forall in H.
    split; [intros Hk; split; [exact I|]; intros x Hx; apply H; auto|]. intros [_ Hk] x Hx. apply H; auto.
  - rewrite forallb_forall, (fold_and_Forall (fun kv => everywhere plain_keys (fst kv) /\ everywhere plain_keys (snd kv))), Forall_forall.
    rewrite Forall_forall in H.
    assert (Hb : forall k, keyb k = true <-> match k with VList _ | VTuple _ | VMap _ => False | _ => True end) by (intros []; cbn; split; try tauto; discriminate).
    split.
    + intros Hk. split.
      * intros k Hin. apply in_map_iff in Hin. destruct Hin as (kv & <- & Hin). specialize (Hk kv Hin). apply andb_prop in Hk. apply Hb. tauto.
      * intros kv Hin. specialize (Hk kv Hin). apply andb_prop in Hk. destruct Hk as [_ Hk]. apply andb_prop in Hk. destruct (H kv Hin). tauto.
    + intros [Hk Ha] kv Hin. rewrite !andb_true_iff. destruct (H kv Hin), (Ha kv Hin). split; [apply Hb, Hk, in_map; assumption|]. tauto.
Qed.

Lemma norm_id v : everywhere no_tuple v -> tuples_to_lists v = v.
Proof.
  induction v using val_rect'; cbn [everywhere no_tuple tuples_to_lists]; intros [Hn Ha]; try reflexivity; try contradiction.
  - apply fold_and_Forall in Ha. rewrite Forall_forall in *. f_equal. rewrite <- (map_id l) at 2. apply map_ext_in. auto.
  - apply (fold_and_Forall (fun kv => everywhere no_tuple (fst kv) /\ everywhere no_tuple (snd kv))) in Ha. rewrite Forall_forall in *.
    f_equal. rewrite <- (map_id m) at 2. apply map_ext_in. intros [k x] Hx. destruct (H _ Hx), (Ha _ Hx). cbn [fst snd] in *. f_equal; auto.
Qed.

Lemma roundtrip v : everywhere well_formed v ->
  ((exists bs, compress v = Ok bs) <-> height v <= 511 /\ everywhere in_range v) /\
  (forall bs, compress v = Ok bs -> everywhere plain_keys v -> decompress bs = Ok (tuples_to_lists v)) /\
  (forall bs, compress v = Ok bs -> ~ everywhere plain_keys v -> decompress bs = Err TypeError).
Proof.
  intros Hwf. split; [apply pack_iff|].
  assert (Hd : forall bs, compress v = Ok bs -> decompress bs = if keys_ok v then Ok (tuples_to_lists v) else Err TypeError).
  { intros bs E. destruct (pack_reads v Hwf _ _ E) as [Hh Hr]. unfold decompress. rewrite <- (app_nil_r bs), Hr by lia.
    destruct (keys_ok v); reflexivity. }
  split; intros bs E Hk; rewrite (Hd bs E).
  - apply keys_ok_iff in Hk. rewrite Hk. reflexivity.
  - destruct (keys_ok v) eqn:Ek; [|reflexivity]. apply keys_ok_iff in Ek. contradiction.
Qed.

(** ** every packed byte is a byte *)
Lemma header_bytes (f : Z -> res (list Z)) n h :
  f = pack_str_header \/ f = pack_bin_header \/ f = pack_array_header \/ f = pack_map_header -> 0 <= n ->
  f n = Ok h -> Forall (fun b => 0 <= b < 256) h.
Proof.
  intros Hf Hn. destruct Hf as [->|[->|[->| ->]]]; unfold pack_str_header, pack_bin_header, pack_array_header, pack_map_header;
    repeat (match goal with |- context[if ?a <? ?b then _ else _] => destruct (Z.ltb_spec a b) end);
    intros E; try discriminate; apply (f_equal (fun r => match r with Ok x => x | Err _ => [] end)) in E; cbv iota beta in E; subst;
    (constructor; [lia|]); first [apply be_bytes | constructor].
Qed.

Lemma pack_int_bytes z h : pack_int z = Ok h -> Forall (fun b => 0 <= b < 256) h.
Proof.
  unfold pack_int. destruct (Z.leb_spec 0 z);
    repeat (match goal with |- context[if ?a <? ?b then _ else _] => destruct (Z.ltb_spec a b) | |- context[if ?a <=? ?b then _ else _] => destruct (Z.leb_spec a b) end);
    intros E; try discriminate; apply (f_equal (fun r => match r with Ok x => x | Err _ => [] end)) in E; cbv iota beta in E; subst;
    (constructor; [lia|]); first [apply be_bytes | constructor].
Qed.

Lemma string_bytes_range s : Forall (fun b => 0 <= b < 256) (bytes_of_string s).
Proof.
  unfold bytes_of_string. apply Forall_map, Forall_forall. intros c _. pose proof (N_ascii_bounded c). lia.
Qed.

Lemma concat_bytes (P : Z -> Prop) bss : Forall (Forall P) bss -> Forall P (concat bss).
Proof. induction 1; cbn; [constructor|]. apply Forall_app. split; assumption. Qed.

Lemma pack_bytes_at v : forall lim bs, pack_at lim v = Ok bs -> Forall (fun b => 0 <= b < 256) bs.
Proof.
  induction v using val_rect'; intros lim bs E; cbn [pack_at] in E; destruct (lim <? 0); try discriminate.
  - injection E as <-. constructor; [lia|constructor].
  - destruct b; injection E as <-; (constructor; [lia|constructor]).
  - eapply pack_int_bytes. eassumption.
  - apply (f_equal (fun r => match r with Ok x => x | Err _ => [] end)) in E; cbv iota beta in E; subst. constructor; [lia|apply be_bytes].
  - destruct (pack_str_header _) as [h|] eqn:Eh; [|discriminate]. cbn [rbind] in E. injection E as <-.
    apply Forall_app. split; [eapply header_bytes; [|apply Nat2Z.is_nonneg|exact Eh]; tauto|apply string_bytes_range].
  - destruct (pack_bin_header _) as [h|] eqn:Eh; [|discriminate]. cbn [rbind] in E. injection E as <-.
    apply Forall_app. split; [eapply header_bytes; [|apply Nat2Z.is_nonneg|exact Eh]; tauto|apply string_bytes_range].
  - destruct (pack_array_header _) as [h|] eqn:Eh; [|discriminate]. cbn [rbind] in E.
    destruct (rmap _ l) as [bss|] eqn:Eb; [|discriminate]. cbn [rbind] in E. injection E as <-.
    apply Forall_app. split; [eapply header_bytes; [|apply Nat2Z.is_nonneg|exact Eh]; tauto|].
    apply concat_bytes. apply rmap_Forall2 in Eb. clear Eh. induction Eb; constructor; inversion H; subst; eauto.
  - destruct (pack_array_header _) as [h|] eqn:Eh; [|discriminate]. cbn [rbind] in E.
    destruct (rmap _ l) as [bss|] eqn:Eb; [|discriminate]. cbn [rbind] in E. injection E as <-.
    apply Forall_app. split; [eapply header_bytes; [|apply Nat2Z.is_nonneg|exact Eh]; tauto|].
    apply concat_bytes. apply rmap_Forall2 in Eb. clear Eh. induction Eb; constructor; inversion H; subst; eauto.
  - destruct (pack_map_header _) as [h|] eqn:Eh; [|discriminate]. cbn [rbind] in E.
    destruct (rmap _ m) as [bss|] eqn:Eb; [|discriminate]. cbn [rbind] in E. injection E as <-.
    apply Forall_app. split; [eapply header_bytes; [|apply Nat2Z.is_nonneg|exact Eh]; tauto|].
    apply concat_bytes. apply rmap_Forall2 in Eb. clear Eh. induction Eb as [|[k x] b m' bss' Ex Eb IH]; constructor; inversion H; subst; [|eauto].
    cbn [fst snd] in *. destruct (pack_at (lim - 1) k) eqn:E1; [|discriminate]. cbn [rbind] in Ex.
    destruct (pack_at (lim - 1) x) eqn:E2; [|discriminate]. cbn [rbind] in Ex. injection Ex as <-.
    destruct H2. apply Forall_app. split; eauto.
Qed.

