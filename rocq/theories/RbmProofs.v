(** The restricted Boltzmann machine demo: reading the tables, the network, and the run. *)
From Verif Require Import Py PyFacts ListFacts Network NetworkSpec NetworkProofs Topology TopologyProofs Evolve EvolveSpec EvolveProofs EvolveStatic UtilsProofs CaRun SubstProofs Rbm RbmSpec RbmMath BipNet.
From Coq Require Import Reals Lra Permutation.
Open Scope string_scope.
Open Scope list_scope.
Open Scope Z_scope.

(** ** The tables *)
Definition wget (ws : table) (x y : label) : option (dict string R) := match dget ws x with Some d => dget d y | None => None end.

Lemma read_weight_get i ws j w x y :
  wget (read_weight i ws (j, w)) x y = if eqd x (Vis (Z.of_nat j)) then (if eqd y (Hid (Z.of_nat i)) then Some [("weight", w)] else wget ws x y) else wget ws x y.
Proof.
  unfold read_weight, wget. cbn [fst snd]. set (a := Vis (Z.of_nat j)). set (h := Hid (Z.of_nat i)). destruct (dmem ws a) eqn:Em.
  - apply dmem_true in Em. destruct (dget_key_some ws a Em) as [d Ed]. rewrite Ed. rewrite dget_dset. destruct (eqd x a) as [->|]; [|reflexivity]. rewrite Ed, dget_dset. reflexivity.
  - apply dmem_false in Em. apply dget_none in Em. rewrite dget_dset_eq. rewrite dget_dset. destruct (eqd x a) as [->|Hne].
    + rewrite dget_dset, Em. reflexivity.
    + rewrite dget_dset_ne by congruence. reflexivity.
Qed.

Lemma vis_eq j j' : Vis (Z.of_nat j) = Vis (Z.of_nat j') <-> j = j'.
Proof. split; [intros E; injection E; lia|congruence]. Qed.
Lemma hid_eq j j' : Hid (Z.of_nat j) = Hid (Z.of_nat j') <-> j = j'.
Proof. split; [intros E; injection E; lia|congruence]. Qed.

Lemma read_line_get i row : forall k ws j i', 
  wget (fold_left (read_weight i) (combine (seq k (length row)) row) ws) (Vis (Z.of_nat j)) (Hid (Z.of_nat i')) =
  if ((i' =? i) && (k <=? j) && (j <? k + length row))%nat then Some [("weight", nth (j - k) row 0%R)] else wget ws (Vis (Z.of_nat j)) (Hid (Z.of_nat i')).
Proof.
  induction row as [|w row IH]; intros k ws j i'; cbn [length seq combine fold_left].
  - destruct (i' =? i)%nat eqn:E1, (k <=? j)%nat eqn:E2, (j <? k + 0)%nat eqn:E3; try reflexivity. apply Nat.leb_le in E2. apply Nat.ltb_lt in E3. lia.
  - rewrite IH, read_weight_get. destruct (Nat.eqb_spec i' i) as [->|Hi]; cbn [andb].
    + destruct (eqd (Hid (Z.of_nat i)) (Hid (Z.of_nat i))) as [_|]; [|congruence]. destruct (eqd (Vis (Z.of_nat j)) (Vis (Z.of_nat k))) as [E|Hne].
      * apply vis_eq in E. subst j. destruct (Nat.leb_spec (S k) k); [lia|]. cbn [andb]. rewrite Nat.leb_refl. destruct (Nat.ltb_spec k (k + S (length row))); [|lia]. cbn [andb]. rewrite Nat.sub_diag. reflexivity.
      * assert (j <> k) by (intros ->; congruence). destruct (Nat.leb_spec (S k) j), (Nat.leb_spec k j); try lia; cbn [andb]; [|reflexivity].
        destruct (Nat.ltb_spec j (S k + length row)), (Nat.ltb_spec j (k + S (length row))); try lia; [|reflexivity]. replace (j - k)%nat with (S (j - S k)) by lia. reflexivity.
    + destruct (eqd (Hid (Z.of_nat i')) (Hid (Z.of_nat i))) as [E|_]; [apply hid_eq in E; contradiction|]. destruct (eqd _ _); reflexivity.
Qed.

Lemma read_lines_get lines : forall k ws i j, (i < length lines)%nat -> (j < length (nth i lines []))%nat ->
  wget (fold_left (fun ws il => fold_left (read_weight (fst il)) (enumerate (snd il)) ws) (combine (seq k (length lines)) lines) ws) (Vis (Z.of_nat j)) (Hid (Z.of_nat (k + i))) = Some [("weight", nth j (nth i lines []) 0%R)].
Proof.
  assert (Hkeep : forall lines k ws i j, (i < k)%nat -> wget (fold_left (fun ws il => fold_left (read_weight (fst il)) (enumerate (snd il)) ws) (combine (seq k (length lines)) lines) ws) (Vis (Z.of_nat j)) (Hid (Z.of_nat i)) = wget ws (Vis (Z.of_nat j)) (Hid (Z.of_nat i))).
  { clear. induction lines as [|row lines IH]; intros k ws i j Hi; [reflexivity|]. cbn [length seq combine fold_left]. rewrite IH by lia. cbn [fst snd]. unfold enumerate. rewrite read_line_get. destruct (Nat.eqb_spec i k); [lia|reflexivity]. }
  induction lines as [|row lines IH]; intros k ws i j Hi Hj; [cbn in Hi; lia|]. cbn [length seq combine fold_left]. destruct i as [|i].
  - rewrite Hkeep by lia. cbn [fst snd nth]. unfold enumerate. rewrite read_line_get. rewrite Nat.add_0_r, Nat.eqb_refl. cbn [nth] in Hj. destruct (Nat.ltb_spec j (0 + length row)); [|lia]. cbn [andb Nat.leb]. rewrite Nat.sub_0_r. reflexivity.
  - replace (k + S i)%nat with (S k + i)%nat by lia. rewrite IH; [reflexivity|cbn in Hi; lia|exact Hj].
Qed.
Lemma read_weights_get lines i j : (i < length lines)%nat -> (j < length (nth i lines []))%nat ->
  exists d, dget (read_weights lines) (Vis (Z.of_nat j)) = Some d /\ dget d (Hid (Z.of_nat i)) = Some [("weight", nth j (nth i lines []) 0%R)].
Proof.
  intros Hi Hj. pose proof (read_lines_get lines 0 [] i j Hi Hj) as E. cbn [Nat.add] in E. change (wget (read_weights lines) (Vis (Z.of_nat j)) (Hid (Z.of_nat i)) = Some [("weight", nth j (nth i lines []) 0%R)]) in E.
  unfold wget in E. destruct (dget (read_weights lines) (Vis (Z.of_nat j))) as [d|]; [|discriminate]. eauto.
Qed.

Lemma read_biases_ok suffix lines : (forall a b, suffix a = suffix b -> a = b) -> Forall (fun l => l <> []) lines ->
  exists d, read_biases suffix lines = Ok d /\ forall i, (i < length lines)%nat -> dget d (suffix (Z.of_nat i)) = Some (nth i (map (hd 0%R) lines) 0%R).
Proof.
  intros Hinj Hne. unfold read_biases, enumerate.
  assert (Hg : forall k d0, exists d, rfold (fun d il => match snd il with [] => Err IndexError | x :: _ => Ok (dset d (suffix (Z.of_nat (fst il))) x) end) (combine (seq k (length lines)) lines) d0 = Ok d /\
    (forall i, (i < length lines)%nat -> dget d (suffix (Z.of_nat (k + i))) = Some (nth i (map (hd 0%R) lines) 0%R)) /\ forall i, (i < k)%nat -> dget d (suffix (Z.of_nat i)) = dget d0 (suffix (Z.of_nat i))).
  { induction Hne as [|l lines Hl Hne IH]; intros k d0; [exists d0; split; [reflexivity|]; split; [intros i Hi; cbn in Hi; lia|auto]|].
    destruct l as [|x l]; [congruence|]. cbn [length seq combine rfold fst snd rbind]. destruct (IH (S k) (dset d0 (suffix (Z.of_nat k)) x)) as (d & E & Hd & Hk). exists d. split; [exact E|]. split.
    - intros [|i] Hi; [rewrite Nat.add_0_r, Hk by lia; rewrite dget_dset_eq; reflexivity|]. replace (k + S i)%nat with (S k + i)%nat by lia. rewrite Hd by (cbn in Hi; lia). reflexivity.
    - intros i Hi. rewrite Hk by lia. apply dget_dset_ne. intros Es. apply Hinj in Es. lia. }
  destruct (Hg 0%nat []) as (d & E & Hd & _). exists d. auto.
Qed.

(** ** The initial conditions *)
Lemma init_fold {X} (key : X -> label) (g : X -> activity) step l : NoDup (map key l) -> (forall x d, In x l -> step d x = Ok (dset d (key x) (g x))) -> forall d0,
  (forall x, In x l -> ~ In (key x) (dkeys d0)) ->
  rfold step l d0 = Ok (d0 ++ map (fun x => (key x, g x)) l).
Proof.
  induction l as [|x l IH]; intros Hnd Hv d0 Hd; [rewrite app_nil_r; reflexivity|]. inversion Hnd as [|? ? Hx Hnd']; subst. cbn [rfold]. rewrite (Hv x d0 (or_introl eq_refl)). cbn [rbind].
  assert (E : dset d0 (key x) (g x) = d0 ++ [(key x, g x)]).
  { specialize (Hd x (or_introl eq_refl)). clear - Hd. induction d0 as [|[k a] d0 IH]; [reflexivity|]. cbn in *. destruct (eqd (key x) k) as [E|]; [exfalso; apply Hd; left; congruence|]. f_equal. apply IH. intros Hi. apply Hd. right. assumption. }
  rewrite E, IH; [rewrite <- app_assoc; reflexivity|assumption|intros y d Hy; apply Hv; right; assumption|].
  intros y Hy. unfold dkeys. rewrite map_app, in_app_iff. cbn. intros [Hi|[Hi|[]]]; [apply (Hd y (or_intror Hy)); assumption|]. apply Hx. rewrite Hi. apply in_map. assumption.
Qed.

(** ** The visible row *)
Lemma visible_row_ok nv (S : dict label activity) : NoDup (dkeys S) -> (forall z, In (Vis z) (dkeys S) -> 0 <= z < Z.of_nat nv) -> forall row0, length row0 = nv ->
  exists row, rfold (fun row la => match fst la with Vis i => of_opt IndexError (py_set_nth row i (fun _ => fst (snd la))) | Hid _ => Ok row end) S row0 = Ok row /\ length row = nv /\
    forall j, (j < nv)%nat -> nth j row 0 = match dget S (Vis (Z.of_nat j)) with Some a => fst a | None => nth j row0 0 end.
Proof.
  induction S as [|[k a] S IH]; intros Hnd Hr row0 Hl; [exists row0; auto|]. inversion Hnd as [|? ? Hk Hnd']; subst. cbn [rfold fst snd]. destruct k as [z|z].
  - specialize (Hr z (or_introl eq_refl)) as Hz. unfold py_set_nth, py_index. destruct (Z.leb_spec 0 z), (Z.ltb_spec z (Z.of_nat (length row0))); try lia. cbn [andb of_opt rbind].
    destruct (IH Hnd' (fun z' Hz' => Hr z' (or_intror Hz')) (upd_nth row0 (Z.to_nat z) (fun _ => fst a)) (length_upd_nth _ _ _)) as (row & E & Hlr & Hn). exists row. split; [exact E|]. split; [exact Hlr|].
    intros j Hj. rewrite Hn by exact Hj. cbn [dget]. destruct (eqd (Vis (Z.of_nat j)) (Vis z)) as [Ez|Hne].
    + injection Ez as <-. assert (En : dget S (Vis (Z.of_nat j)) = None) by (apply dget_none; exact Hk). rewrite En. rewrite Nat2Z.id. 
      apply nth_error_nth. rewrite nth_error_upd_nth. destruct (Nat.eq_dec j j); [|congruence]. destruct (nth_error row0 j) eqn:Ee; [reflexivity|apply nth_error_None in Ee; lia].
    + destruct (dget S (Vis (Z.of_nat j))); [reflexivity|]. assert (Hjz : j <> Z.to_nat z) by (intros ->; apply Hne; f_equal; lia).
      rewrite <- !nth_default_eq. unfold nth_default. rewrite nth_error_upd_nth. destruct (Nat.eq_dec j (Z.to_nat z)); [contradiction|reflexivity].
  - cbn [rbind]. destruct (IH Hnd' (fun z' Hz' => Hr z' (or_intror Hz')) row0 eq_refl) as (row & E & Hlr & Hn). exists row. split; [exact E|]. split; [exact Hlr|]. intros j Hj. rewrite Hn by exact Hj. cbn [dget]. destruct (eqd _ _); [discriminate|reflexivity].
Qed.

(** ** Sums over the neighbours *)
Lemma total_perm l l' : Permutation l l' -> total l = total l'.
Proof. unfold total. induction 1; cbn; try lra. Qed.
Lemma column_seq W h j : length W = length h -> column W h j = total (map (fun i => (nth j (nth i W []) 0 * IZR (nth i h 0%Z))%R) (seq 0 (length h))).
Proof.
  unfold column. revert h. induction W as [|r W IH]; intros [|z h] Hl; try discriminate; [reflexivity|]. cbn [combine map length seq fst snd nth total fold_right]. f_equal.
  fold (total (map (fun p => (nth j (fst p) 0 * IZR (snd p))%R) (combine W h))). rewrite IH by (cbn in Hl; lia). rewrite <- seq_shift, map_map. reflexivity.
Qed.

Lemma sum_inputs {I} (x : node_ctx label R activity I) g : forall l acc,
  (forall w, In w l -> exists wt a, dget (x_conn x) w = Some [[("weight", wt)]] /\ dget (x_acts x) w = Some a /\ g w = (wt * IZR (fst a))%R) ->
  rfold (add_input x) l acc = Ok (acc + total (map g l))%R.
Proof.
  induction l as [|w l IH]; intros acc Hl; cbn [rfold map].
  - f_equal. unfold total. cbn. lra.
  - destruct (Hl w (or_introl eq_refl)) as (wt & a & E1 & E2 & E3). unfold add_input at 1. rewrite E1. cbn [dget]. destruct (eqd "weight" "weight") as [_|]; [|congruence]. rewrite E2. cbn [rbind].
    rewrite IH by (intros y Hy; apply Hl; right; assumption). f_equal. rewrite <- E3. change (total (g w :: map g l)) with (g w + total (map g l))%R. lra.
Qed.

Lemma nth_error_unique {X} (l : list X) i j x : NoDup l -> nth_error l i = Some x -> nth_error l j = Some x -> i = j.
Proof. intros Hn Hi Hj. apply (proj1 (NoDup_nth_error l) Hn); [apply nth_error_Some; congruence|congruence]. Qed.

Definition is_vis (v : label) : bool := match v with Vis _ => true | Hid _ => false end.

Lemma tosses_next b c t : (1 <= t)%nat -> tosses b c (S t) = (tosses b c t + if Nat.odd t then length c else length b)%nat.
Proof.
  intros Ht. unfold tosses. replace (S t - 1)%nat with t by lia. pose proof (Nat.div_mod t 2 ltac:(lia)) as D. pose proof (Nat.mod_upper_bound t 2 ltac:(lia)) as M.
  destruct (Nat.odd t) eqn:Eo.
  - apply Nat.odd_spec in Eo. destruct Eo as [m ->]. replace (S (2 * m + 1)) with ((m + 1) * 2)%nat by lia. replace (2 * m + 1 - 1)%nat with (m * 2)%nat by lia. rewrite !Nat.div_mul by lia.
    replace ((2 * m + 1) / 2)%nat with m; [lia|]. apply (Nat.div_unique _ 2 m 1); lia.
  - assert (Ev : Nat.even t = true) by (rewrite <- Nat.negb_odd, Eo; reflexivity). apply Nat.even_spec in Ev. destruct Ev as [m ->]. replace ((2 * m) / 2)%nat with m by (apply (Nat.div_unique _ 2 m 0); lia).
    replace ((2 * m - 1) / 2)%nat with (m - 1)%nat by (apply (Nat.div_unique _ 2 (m - 1) 1); lia). replace (S (2 * m) / 2)%nat with m by (apply (Nat.div_unique _ 2 m 1); lia). destruct m; [lia|]. cbn [Nat.sub]. rewrite Nat.sub_0_r. lia.
Qed.
Lemma time_parity t : (Z.of_nat t mod 2 =? 0) = Nat.even t.
Proof.
  destruct (Nat.even t) eqn:E.
  - apply Nat.even_spec in E. destruct E as [m ->]. apply Z.eqb_eq. rewrite Nat2Z.inj_mul, Z.mul_comm. apply Z.mod_mul. lia.
  - assert (Eo : Nat.odd t = true) by (rewrite <- Nat.negb_even, E; reflexivity). apply Nat.odd_spec in Eo. destruct Eo as [m ->]. apply Z.eqb_neq. replace (Z.of_nat (2 * m + 1)) with (1 + Z.of_nat m * 2) by lia. rewrite Z.mod_add by lia. discriminate.
Qed.

Lemma perm_labels (mk : Z -> label) nodes n : Permutation nodes (map (fun j => mk (Z.of_nat j)) (seq 0 n)) -> forall v, In v nodes <-> exists j, (j < n)%nat /\ v = mk (Z.of_nat j).
Proof.
  intros Hp v. split.
  - intros Hv. apply (Permutation_in _ Hp) in Hv. apply in_map_iff in Hv. destruct Hv as (j & <- & Hj). apply in_seq in Hj. exists j. split; [lia|reflexivity].
  - intros (j & Hj & ->). apply (Permutation_in _ (Permutation_sym Hp)). apply in_map_iff. exists j. split; [reflexivity|]. apply in_seq. lia.
Qed.
Lemma perm_nodup (mk : Z -> label) nodes n : (forall a b, mk a = mk b -> a = b) -> Permutation nodes (map (fun j => mk (Z.of_nat j)) (seq 0 n)) -> NoDup nodes.
Proof.
  intros Hi Hp. apply (Permutation_NoDup (Permutation_sym Hp)). apply FinFun.Injective_map_NoDup; [|apply seq_NoDup]. intros a b E. apply Hi in E. lia.
Qed.

Section Run.
  Context {I BA BN : Type} (E : env label R activity BA BN).
  Context (choice : nat -> Z) (binomial : nat -> R -> Z) (vn hn : list label) (vpos hpos : nat -> nat).
  Context (W : list (list R)) (vb hb : list (list R)).
  Notation b := (map (hd 0%R) vb).
  Notation c := (map (hd 0%R) hb).
  Hypothesis Hv : Permutation vn (map (fun j => Vis (Z.of_nat j)) (seq 0 (length vb))).
  Hypothesis Hh : Permutation hn (map (fun i => Hid (Z.of_nat i)) (seq 0 (length hb))).
  Hypothesis Hvne : vb <> [].
  Hypothesis Hhne : hb <> [].
  Hypothesis Hvb : Forall (fun l => l <> []) vb.
  Hypothesis Hhb : Forall (fun l => l <> []) hb.
  Hypothesis HW : length W = length hb.
  Hypothesis Hrows : Forall (fun row => length row = length vb) W.
  Hypothesis Hvpos : forall j, (j < length vb)%nat -> nth_error vn (vpos j) = Some (Vis (Z.of_nat j)).
  Hypothesis Hhpos : forall i, (i < length hb)%nat -> nth_error hn (hpos i) = Some (Hid (Z.of_nat i)).

  Definition weight_of (u v : label) : dict string R := match u, v with Vis j, Hid i => [("weight", nth (Z.to_nat j) (nth (Z.to_nat i) W []) 0%R)] | _, _ => [] end.

  Let v0 := map (fun j => choice (vpos j)) (seq 0 (length vb)).
  Let m := machine W b c binomial vpos hpos v0.
  Definition value (vh : list Z * list Z) (v : label) : activity :=
    match v with Vis z => (nth (Z.to_nat z) (fst vh) 0, nth (Z.to_nat z) b 0%R) | Hid z => (nth (Z.to_nat z) (snd vh) 0, nth (Z.to_nat z) c 0%R) end.

  Lemma machine_lengths k : length (fst (m k)) = length vb /\ length (snd (m k)) = length hb.
  Proof.
    unfold m, v0. induction k as [|k IH]; cbn [machine].
    - cbn [fst snd]. rewrite repeat_length, !map_length, seq_length. auto.
    - destruct (machine W b c binomial vpos hpos _ k) as [v h]. cbn [fst snd] in IH. destruct (Nat.odd (S k)); cbn [fst snd]; rewrite map_length, seq_length, map_length; tauto.
  Qed.

  Lemma row_length i : (i < length hb)%nat -> length (nth i W []) = length vb.
  Proof. intros Hi. rewrite Forall_forall in Hrows. apply Hrows. apply nth_In. lia. Qed.

  Lemma vn_in v : In v vn <-> exists j, (j < length vb)%nat /\ v = Vis (Z.of_nat j).
  Proof. apply (perm_labels Vis). assumption. Qed.
  Lemma hn_in v : In v hn <-> exists j, (j < length hb)%nat /\ v = Hid (Z.of_nat j).
  Proof. apply (perm_labels Hid). assumption. Qed.
  Lemma vn_nodup : NoDup vn.
  Proof. apply (perm_nodup Vis _ (length vb)); [congruence|assumption]. Qed.
  Lemma hn_nodup : NoDup hn.
  Proof. apply (perm_nodup Hid _ (length hb)); [congruence|assumption]. Qed.
  Lemma vn_ne : vn <> [].
  Proof. intros ->. apply Permutation_nil in Hv. destruct vb; [congruence|discriminate]. Qed.
  Lemma hn_ne : hn <> [].
  Proof. intros ->. apply Permutation_nil in Hh. destruct hb; [congruence|discriminate]. Qed.
  Lemma disjoint x : In x vn -> ~ In x hn.
  Proof. intros H1 H2. apply vn_in in H1. apply hn_in in H2. destruct H1 as (j & _ & ->), H2 as (i & _ & H2). discriminate. Qed.

  Lemma net_ok : exists n, bipartite vn hn (Some (read_weights W)) = (n, Ok tt) /\ net_rot n = None /\ nodes n = bip_nodes vn hn /\
      (forall u, In u vn -> in_edges n u = Ok (map (fun v => (v, [weight_of u v])) hn)) /\
      (forall v, In v hn -> in_edges n v = Ok (map (fun u => (u, [weight_of u v])) vn)).
  Proof.
    apply bip_network; [apply vn_nodup|apply hn_nodup|exact disjoint|apply vn_ne|apply hn_ne| |].
    - intros u v Hu Hvv. apply vn_in in Hu. apply hn_in in Hvv. destruct Hu as (j & _ & ->), Hvv as (i & _ & ->). reflexivity.
    - intros u v Hu Hvv. apply vn_in in Hu. apply hn_in in Hvv. destruct Hu as (j & Hj & ->), Hvv as (i & Hi & ->). cbn [weight_of]. rewrite !Nat2Z.id. apply read_weights_get; [lia|]. rewrite row_length by assumption. assumption.
  Qed.

  Lemma filter_all {X} (p : X -> bool) l : (forall x, In x l -> p x = true) -> filter p l = l.
  Proof. induction l as [|x l IH]; intros Hp; [reflexivity|]. cbn [filter]. rewrite Hp by (left; reflexivity). f_equal. apply IH. intros y Hy. apply Hp. right. assumption. Qed.
  Lemma filter_none {X} (p : X -> bool) l : (forall x, In x l -> p x = false) -> filter p l = [].
  Proof. induction l as [|x l IH]; intros Hp; [reflexivity|]. cbn [filter]. rewrite Hp by (left; reflexivity). apply IH. intros y Hy. apply Hp. right. assumption. Qed.

  Lemma nodes_parts : filter is_vis (bip_nodes vn hn) = vn /\ filter (fun v => negb (is_vis v)) (bip_nodes vn hn) = hn.
  Proof.
    pose proof vn_in as Hvi. pose proof hn_in as Hhi. pose proof vn_ne as Hn1. pose proof hn_ne as Hn2. destruct vn as [|a A] eqn:EA; [congruence|]. rewrite bip_nodes_cons by assumption.
    assert (HA : forall x, In x (a :: A) -> is_vis x = true) by (intros x Hx; apply Hvi in Hx; destruct Hx as (j & _ & ->); reflexivity).
    assert (HB : forall x, In x hn -> is_vis x = false) by (intros x Hx; apply Hhi in Hx; destruct Hx as (j & _ & ->); reflexivity).
    change (a :: hn ++ A) with ([a] ++ hn ++ A). rewrite !filter_app. split.
    - rewrite (filter_none is_vis hn HB), (filter_all is_vis [a]), (filter_all is_vis A); [reflexivity|intros x Hx; apply HA; right; assumption|intros x [<-|[]]; apply HA; left; reflexivity].
    - rewrite (filter_all _ hn), (filter_none _ [a]), (filter_none _ A); [apply app_nil_r|intros x Hx; rewrite HA by (right; assumption); reflexivity|intros x [<-|[]]; rewrite HA by (left; reflexivity); reflexivity|intros x Hx; rewrite HB by assumption; reflexivity].
  Qed.
  Lemma nodes_in v : In v (bip_nodes vn hn) <-> In v vn \/ In v hn.
  Proof.
    pose proof vn_ne as Hn1. pose proof hn_ne as Hn2. destruct vn as [|a A]; [congruence|]. rewrite bip_nodes_cons by assumption. cbn [In]. rewrite in_app_iff. tauto.
  Qed.
  Lemma nodes_nodup : NoDup (bip_nodes vn hn).
  Proof.
    pose proof vn_ne as Hn1. pose proof hn_ne as Hn2. pose proof vn_nodup as N1. pose proof hn_nodup as N2. pose proof disjoint as D. destruct vn as [|a A]; [congruence|]. rewrite bip_nodes_cons by assumption.
    apply (Permutation_NoDup (l := (a :: A) ++ hn)); [cbn [app]; constructor; apply Permutation_app_comm|]. clear - N1 N2 D. set (l := a :: A) in *. clearbody l. induction l as [|x l IH]; [exact N2|]. inversion N1 as [|? ? Hx N1']; subst. cbn [app]. constructor.
    - rewrite in_app_iff. intros [Hi|Hi]; [contradiction|]. apply (D x); [left; reflexivity|assumption].
    - apply IH; [exact N1'|intros y Hy; apply D; right; assumption].
  Qed.

  Lemma init_ok : exists vd hdd S0, read_biases Vis vb = Ok vd /\ read_biases Hid hb = Ok hdd /\ initialize_rbm choice vn hn vd hdd = Ok S0 /\
    dkeys S0 = vn ++ hn /\ forall v, In v vn \/ In v hn -> dget S0 v = Some (value (m 0) v).
  Proof.
    destruct (read_biases_ok Vis vb) as (vd & E1 & D1); [congruence|assumption|]. destruct (read_biases_ok Hid hb) as (hdd & E2 & D2); [congruence|assumption|].
    exists vd, hdd. unfold initialize_rbm.
    set (gv := fun kv : nat * label => (choice (fst kv), match dget vd (snd kv) with Some x => x | None => 0%R end)).
    set (gh := fun v : label => (0, match dget hdd v with Some x => x | None => 0%R end)).
    assert (Ek : map snd (enumerate vn) = vn) by (unfold enumerate; clear; generalize 0%nat; induction vn as [|x l IH]; intros k; [reflexivity|]; cbn [length seq combine map snd]; f_equal; apply IH).
    assert (Ek' : dkeys (map (fun kv => (snd kv, gv kv)) (enumerate vn)) = vn) by (unfold dkeys; rewrite map_map; cbn [fst]; exact Ek).
    rewrite (init_fold snd gv _ (enumerate vn)).
    - cbn [rbind app]. rewrite (init_fold (fun v => v) gh _ hn).
      + eexists. split; [exact E1|]. split; [exact E2|]. split; [reflexivity|]. split.
        * unfold dkeys. rewrite map_app, !map_map. cbn [fst]. rewrite map_id. f_equal. exact Ek.
        * intros v Hin. rewrite dget_app.
          assert (Ev : forall j, (j < length vb)%nat -> dget (map (fun kv => (snd kv, gv kv)) (enumerate vn)) (Vis (Z.of_nat j)) = Some (value (m 0) (Vis (Z.of_nat j)))).
          { intros j Hj. apply dget_in.
            - rewrite Ek'. apply vn_nodup.
            - apply in_map_iff. exists (vpos j, Vis (Z.of_nat j)). split.
              + unfold gv. cbn [fst snd]. rewrite D1 by assumption. cbn [value]. rewrite Nat2Z.id. do 2 f_equal. unfold m, v0. cbn [machine fst].
                rewrite (nth_indep _ 0 (choice (vpos 0%nat))) by (rewrite map_length, seq_length; assumption). rewrite (map_nth (fun j => choice (vpos j))), seq_nth by assumption. reflexivity.
              + unfold enumerate. specialize (Hvpos j Hj). clear - Hvpos. assert (G : forall l k i (x : label), nth_error l i = Some x -> In ((k + i)%nat, x) (combine (seq k (length l)) l)).
                { induction l as [|y l IH]; intros k i x Hi; [destruct i; discriminate|]. cbn [length seq combine]. destruct i as [|i]; [injection Hi as ->; left; f_equal; lia|]. right. replace (k + S i)%nat with (S k + i)%nat by lia. apply IH. exact Hi. }
                apply (G vn 0%nat). exact Hvpos. }
          destruct Hin as [Hin|Hin].
          -- apply vn_in in Hin. destruct Hin as (j & Hj & ->). rewrite Ev by assumption. reflexivity.
          -- assert (En : dget (map (fun kv => (snd kv, gv kv)) (enumerate vn)) v = None) by (apply dget_none; rewrite Ek'; intros Hi; apply (disjoint v Hi Hin)).
             rewrite En. apply hn_in in Hin as Hin'. destruct Hin' as (i & Hi & ->). apply dget_in.
             ++ unfold dkeys. rewrite map_map. cbn [fst]. rewrite map_id. apply hn_nodup.
             ++ apply in_map_iff. exists (Hid (Z.of_nat i)). split; [|assumption]. unfold gh. rewrite D2 by assumption. cbn [value]. rewrite Nat2Z.id. do 2 f_equal. unfold m. cbn [machine snd]. clear. generalize (length c). intros q. revert i. induction q as [|q IH]; intros [|i]; cbn; try reflexivity. apply IH.
      + rewrite map_id. apply hn_nodup.
      + intros v d Hin. apply hn_in in Hin. destruct Hin as (j & Hj & ->). unfold gh. rewrite D2 by assumption. reflexivity.
      + intros v Hin. rewrite Ek'. intros Hi. apply (disjoint v Hi Hin).
    - rewrite Ek. apply vn_nodup.
    - intros [k v] d Hk. unfold gv. cbn [fst snd]. assert (Hin : In v vn) by (rewrite <- Ek; apply (in_map snd) in Hk; exact Hk). apply vn_in in Hin. destruct Hin as (j & Hj & ->). rewrite D1 by assumption. reflexivity.
    - intros x Hx [].
  Qed.

  (** the result of the rule at a node *)
  Lemma rule_ok (n : network label R) k S past v (x : node_ctx label R activity I) u :
    net_rot n = None -> nodes n = bip_nodes vn hn ->
    (forall u, In u vn -> in_edges n u = Ok (map (fun v => (v, [weight_of u v])) hn)) ->
    (forall v, In v hn -> in_edges n v = Ok (map (fun u => (u, [weight_of u v])) vn)) ->
    (forall w, In w vn \/ In w hn -> dget S w = Some (value (m k) w)) ->
    ctx_for E n S (Z.of_nat k + 1) past (InStr "__timestep__") v x ->
    (In v vn -> forall done rest, nodes n = done ++ v :: rest -> (Nat.odd (Datatypes.S k) = false -> u = (tosses b c (Datatypes.S k) + length (filter is_vis done))%nat) ->
       rbm_rule binomial vn hn u x = Ok ((u + if Nat.odd (Datatypes.S k) then 0 else 1)%nat, mkOut (value (m (Datatypes.S k)) v) [] [])) /\
    (In v hn -> forall done rest, nodes n = done ++ v :: rest -> (Nat.odd (Datatypes.S k) = true -> u = (tosses b c (Datatypes.S k) + length (filter (fun w => negb (is_vis w)) done))%nat) ->
       rbm_rule binomial vn hn u x = Ok ((u + if Nat.odd (Datatypes.S k) then 1 else 0)%nat, mkOut (value (m (Datatypes.S k)) v) [] [])).
  Proof.
    intros Hrot Hnodes Hev Heh HS Hx. pose proof (cf_label _ _ _ _ _ _ _ _ Hx) as Xl. pose proof (cf_time _ _ _ _ _ _ _ _ Hx) as Xt. pose proof (cf_acts _ _ _ _ _ _ _ _ Hx) as Xa. pose proof (cf_cur _ _ _ _ _ _ _ _ Hx) as Xc.
    pose proof (cf_conn _ _ _ _ _ _ _ _ Hx) as Xe. pose proof (cf_nbrs _ _ _ _ _ _ _ _ Hx) as Xn. unfold nbrs_of in Xn. rewrite Hrot in Xn. destruct Xn as (inc & Einc & Xn). rewrite Xe in Einc. injection Einc as <-.
    destruct (machine_lengths k) as [Lv Lh].
    assert (Tp : (x_time x mod 2 =? 0) = negb (Nat.odd (Datatypes.S k))) by (rewrite Xt; replace (Z.of_nat k + 1) with (Z.of_nat (Datatypes.S k)) by lia; rewrite time_parity, Nat.negb_odd; reflexivity).
    assert (Mv : forall w, member w vn = true <-> In w vn).
    { intros w. unfold member. rewrite existsb_exists. split; [intros (y & Hy & Ey)|intros Hw; exists w; split; [assumption|apply eqb_refl]]. destruct (eqb_spec w y) as [->|]; [assumption|discriminate]. }
    assert (Mh : forall w, member w hn = true <-> In w hn).
    { intros w. unfold member. rewrite existsb_exists. split; [intros (y & Hy & Ey)|intros Hw; exists w; split; [assumption|apply eqb_refl]]. destruct (eqb_spec w y) as [->|]; [assumption|discriminate]. }
    assert (Step : m (Datatypes.S k) = if Nat.odd (Datatypes.S k) then (fst (m k), map (fun i => binomial (tosses b c (Datatypes.S k) + hpos i)%nat (hidden_on W b c (fst (m k)) i)) (seq 0 (length c)))
      else (map (fun j => binomial (tosses b c (Datatypes.S k) + vpos j)%nat (visible_on W b c (snd (m k)) j)) (seq 0 (length b)), snd (m k))).
    { unfold m. cbn [machine]. destruct (machine W b c binomial vpos hpos v0 k) as [v1 h1]. reflexivity. }
    assert (HWc : length W = length c) by (rewrite map_length; assumption).
    assert (Hrb : Forall (fun row => length row = length b) W) by (rewrite map_length; assumption).
    destruct nodes_parts as [Pv Ph].
    split; intros Hin done rest En Hu.
    - assert (Cur : x_cur x = value (m k) v) by (rewrite HS in Xc by auto; congruence).
      apply vn_in in Hin as Hin'. destruct Hin' as (j & Hj & Ev). unfold rbm_rule. rewrite Cur, Xl, Tp, Step. rewrite Ev at 1. cbn [value]. rewrite Nat2Z.id.
      assert (Nh : member v hn = false) by (destruct (member v hn) eqn:Em; [|reflexivity]; apply Mh in Em; exfalso; apply (disjoint v Hin Em)). rewrite Nh, (proj2 (Mv v) Hin), andb_false_r, andb_true_r.
      destruct (Nat.odd (Datatypes.S k)) eqn:Eo; cbn [negb].
      + rewrite Nat.add_0_r. rewrite Ev. cbn [value]. rewrite Nat2Z.id. reflexivity.
      + rewrite (sum_inputs x (fun w => match w with Hid i => (nth j (nth (Z.to_nat i) W []) 0 * IZR (nth (Z.to_nat i) (snd (m k)) 0%Z))%R | Vis _ => 0%R end)).
        * cbn [rbind]. rewrite Rplus_0_l. replace (u + 1)%nat with (Datatypes.S u) by lia. do 4 f_equal. rewrite Ev. cbn [value fst snd]. rewrite Nat2Z.id. f_equal.
          rewrite (nth_indep _ 0 (binomial (tosses b c (Datatypes.S k) + vpos 0)%nat (visible_on W b c (snd (m k)) 0))) by (rewrite map_length, seq_length, map_length; assumption).
          rewrite (map_nth (fun j => binomial (tosses b c (Datatypes.S k) + vpos j)%nat (visible_on W b c (snd (m k)) j))), seq_nth by (rewrite map_length; assumption). cbn [Nat.add].
          rewrite (visible_on_eq W b c HWc Hrb) by (rewrite map_length; assumption). unfold sigmoid. f_equal.
          -- rewrite Hu by reflexivity. f_equal. apply (nth_error_unique vn _ _ (Vis (Z.of_nat j)) vn_nodup); [|apply Hvpos; assumption]. rewrite <- Pv, <- Hnodes, En, filter_app. cbn [filter]. rewrite Ev. cbn [is_vis]. rewrite nth_error_app2, Nat.sub_diag by lia. reflexivity.
          -- do 4 f_equal. f_equal. assert (Nb : x_nbrs x = hn) by (rewrite Xn; rewrite Hev in Xe by exact Hin; injection Xe as <-; rewrite map_map; cbn [fst]; apply map_id). rewrite Nb.
             rewrite column_seq by (rewrite Lh; assumption). rewrite (total_perm _ _ (Permutation_map _ Hh)), map_map, Lh. apply total_ext. intros i _. rewrite Nat2Z.id. reflexivity.
        * intros w Hw. rewrite Xn in Hw. rewrite Hev in Xe by exact Hin. injection Xe as Xe. rewrite <- Xe, map_map in Hw. cbn [fst] in Hw. rewrite map_id in Hw. apply hn_in in Hw as Hw'. destruct Hw' as (i & Hi & Ew).
          exists (nth j (nth i W []) 0%R), (value (m k) w). split; [|split].
          -- rewrite <- Xe. apply dget_in; [unfold dkeys; rewrite map_map; cbn [fst]; rewrite map_id; apply hn_nodup|]. apply in_map_iff. exists w. split; [|assumption]. rewrite Ev, Ew. cbn [weight_of]. rewrite !Nat2Z.id. reflexivity.
          -- rewrite Xa. apply HS. right. assumption.
          -- rewrite Ew. cbn [value fst]. rewrite Nat2Z.id. reflexivity.
    - assert (Cur : x_cur x = value (m k) v) by (rewrite HS in Xc by auto; congruence).
      apply hn_in in Hin as Hin'. destruct Hin' as (i & Hi & Ev). unfold rbm_rule. rewrite Cur, Xl, Tp, Step. rewrite Ev at 1. cbn [value]. rewrite Nat2Z.id.
      assert (Nv : member v vn = false) by (destruct (member v vn) eqn:Em; [|reflexivity]; apply Mv in Em; exfalso; apply (disjoint v Em Hin)). rewrite Nv, (proj2 (Mh v) Hin), andb_false_r, andb_true_r.
      destruct (Nat.odd (Datatypes.S k)) eqn:Eo; cbn [negb].
      + rewrite (sum_inputs x (fun w => match w with Vis j => (nth (Z.to_nat j) (nth i W []) 0 * IZR (nth (Z.to_nat j) (fst (m k)) 0%Z))%R | Hid _ => 0%R end)).
        * cbn [rbind]. rewrite Rplus_0_l. replace (u + 1)%nat with (Datatypes.S u) by lia. do 4 f_equal. rewrite Ev. cbn [value fst snd]. rewrite Nat2Z.id. f_equal.
          rewrite (nth_indep _ 0 (binomial (tosses b c (Datatypes.S k) + hpos 0)%nat (hidden_on W b c (fst (m k)) 0))) by (rewrite map_length, seq_length, map_length; assumption).
          rewrite (map_nth (fun i => binomial (tosses b c (Datatypes.S k) + hpos i)%nat (hidden_on W b c (fst (m k)) i))), seq_nth by (rewrite map_length; assumption). cbn [Nat.add].
          rewrite (hidden_on_eq W b c HWc) by (rewrite map_length; assumption). unfold sigmoid. f_equal.
          -- rewrite Hu by reflexivity. f_equal. apply (nth_error_unique hn _ _ (Hid (Z.of_nat i)) hn_nodup); [|apply Hhpos; assumption]. rewrite <- Ph, <- Hnodes, En, filter_app. cbn [filter]. rewrite Ev. cbn [is_vis negb]. rewrite nth_error_app2, Nat.sub_diag by lia. reflexivity.
          -- do 4 f_equal. f_equal. assert (Nb : x_nbrs x = vn) by (rewrite Xn; rewrite Heh in Xe by exact Hin; injection Xe as <-; rewrite map_map; cbn [fst]; apply map_id). rewrite Nb.
             rewrite dot_seq by (rewrite Lv, row_length by assumption; reflexivity). rewrite (total_perm _ _ (Permutation_map _ Hv)), map_map, row_length by assumption. apply total_ext. intros j _. rewrite Nat2Z.id. reflexivity.
        * intros w Hw. rewrite Xn in Hw. rewrite Heh in Xe by exact Hin. injection Xe as Xe. rewrite <- Xe, map_map in Hw. cbn [fst] in Hw. rewrite map_id in Hw. apply vn_in in Hw as Hw'. destruct Hw' as (j & Hj & Ew).
          exists (nth j (nth i W []) 0%R), (value (m k) w). split; [|split].
          -- rewrite <- Xe. apply dget_in; [unfold dkeys; rewrite map_map; cbn [fst]; rewrite map_id; apply vn_nodup|]. apply in_map_iff. exists w. split; [|assumption]. rewrite Ev, Ew. cbn [weight_of]. rewrite !Nat2Z.id. reflexivity.
          -- rewrite Xa. apply HS. left. assumption.
          -- rewrite Ew. cbn [value fst]. rewrite Nat2Z.id. reflexivity.
      + rewrite Nat.add_0_r. rewrite Ev. cbn [value]. rewrite Nat2Z.id. reflexivity.
  Qed.

  Definition shows (k : nat) (S : dict label activity) : Prop :=
    NoDup (dkeys S) /\ (forall v, In v (dkeys S) <-> In v vn \/ In v hn) /\ forall v, In v vn \/ In v hn -> dget S v = Some (value (m k) v).

  Theorem rbm_run fuel T : 1 <= T -> (Z.to_nat T <= fuel)%nat ->
    exists uf traj hs, rbm_demo (I := I) choice binomial vn hn E fuel W vb hb T = Ok (uf, traj) /\ Z.of_nat (length hs) = T /\
      Forall2 (fun s S => activities E s = Ok (shown_acts S)) traj hs /\ uf = tosses b c (length hs) /\ forall k S, nth_error hs k = Some S -> shows k S.
  Proof.
    intros HT Hfuel. unfold rbm_demo. destruct init_ok as (vd & hdd & S0 & E1 & E2 & E3 & K0 & D0). rewrite E1. cbn [rbind]. rewrite E2. cbn [rbind].
    destruct net_ok as (n & En & Hrot & Hnodes & Hev & Heh). rewrite En, E3. cbn [rbind].
    assert (Hsh0 : shows 0 S0).
    { split; [rewrite K0; apply (Permutation_NoDup (l := bip_nodes vn hn)); [|apply nodes_nodup]|split; [intros v; rewrite K0; apply in_app_iff|exact D0]].
      pose proof vn_ne as Hn1. pose proof hn_ne as Hn2. clear - Hn1 Hn2. destruct vn as [|a A]; [congruence|]. rewrite bip_nodes_cons by assumption. cbn [app]. constructor. apply Permutation_app_comm. }
    assert (Hclosed : closed n).
    { intros v Hin. rewrite Hnodes in Hin |- *. apply nodes_in in Hin. unfold nbrs_of. rewrite Hrot. destruct Hin as [Hin|Hin].
      - exists (map (fun w => (w, [weight_of v w])) hn), hn. split; [apply Hev; assumption|]. split; [exists (map (fun w => (w, [weight_of v w])) hn); split; [apply Hev; assumption|rewrite map_map; cbn [fst]; symmetry; apply map_id]|]. intros w Hw. apply nodes_in. right. assumption.
      - exists (map (fun w => (w, [weight_of w v])) vn), vn. split; [apply Heh; assumption|]. split; [exists (map (fun w => (w, [weight_of w v])) vn); split; [apply Heh; assumption|rewrite map_map; cbn [fst]; symmetry; apply map_id]|]. intros w Hw. apply nodes_in. left. assumption. }
    assert (Hst : static (rbm_args binomial vn hn) (rbm_rule (I := I) binomial vn hn)) by (repeat split).
    assert (Hlen : length (to_dict E (CDict S0)) = net_len n).
    { cbn [to_dict]. transitivity (length (dkeys S0)); [unfold dkeys; rewrite map_length; reflexivity|]. rewrite K0. transitivity (length (nodes n)); [|unfold nodes, dkeys, net_len; apply map_length]. rewrite Hnodes.
      pose proof vn_ne as Hn1. pose proof hn_ne as Hn2. clear - Hn1 Hn2. destruct vn as [|a A]; [congruence|]. rewrite bip_nodes_cons by assumption. cbn [app length]. rewrite !app_length. lia. }
    destruct (static_run E fuel 0%nat n (CDict S0) T (rbm_args binomial vn hn) (rbm_rule binomial vn hn)
      (fun hs u => u = tosses b c (length hs) /\ forall k S, nth_error hs k = Some S -> shows k S) Hst HT Hfuel Hlen) as (uf & traj & hs & Erun & Hl & Hf & Hu & Hs).
    - cbn [length to_dict]. split; [reflexivity|]. intros [|k] S Ek; [injection Ek as <-; exact Hsh0|destruct k; discriminate].
    - intros mk tab hist S u [Hu Hs] Hlt. set (k := length hist). rewrite app_length in Hu. cbn [length] in Hu. fold k in Hu. replace (k + 1)%nat with (Datatypes.S k) in Hu by lia.
      destruct (Hs k S) as (SN & SK & SV); [rewrite nth_error_app2, Nat.sub_diag by (unfold k; lia); reflexivity|].
      assert (Hcov : covers n S) by (intros v Hin; rewrite Hnodes in Hin; apply nodes_in in Hin; eauto).
      set (past := past_of E (g_past (rbm_args binomial vn hn)) (hist ++ [S])).
      set (drawn := fun done : list label => if Nat.odd (Datatypes.S k) then length (filter (fun w => negb (is_vis w)) done) else length (filter is_vis done)).
      destruct (sweep_total E (rbm_args binomial vn hn) mk (rbm_rule binomial vn hn) (Z.of_nat k + 1) S n past tab u
        (fun done u curr => u = (tosses b c (Datatypes.S k) + drawn done)%nat /\ dkeys curr = done /\ forall v, In v done -> dget curr v = Some (value (m (Datatypes.S k)) v))
        eq_refl eq_refl Hclosed Hcov) as (s & Es & Ea & Er & _ & Hsu & Hkeys & Hvals).
      + split; [unfold drawn; cbn [filter length]; destruct (Nat.odd (Datatypes.S k)); lia|]. split; [reflexivity|intros v []].
      + intros done v rest u1 curr x Enn (Hu1 & Hk & Hd) Hx.
        assert (Hin : In v vn \/ In v hn) by (apply nodes_in; rewrite <- Hnodes, Enn; apply in_or_app; right; left; reflexivity).
        destruct (rule_ok n k S past v x u1 Hrot Hnodes Hev Heh SV Hx) as [Rv Rh].
        assert (Hnew : ~ In v done) by (pose proof nodes_nodup as Nd; rewrite <- Hnodes, Enn in Nd; apply NoDup_remove_2 in Nd; intros Hi; apply Nd, in_or_app; left; assumption).
        assert (Hcurr : forall a, a = value (m (Datatypes.S k)) v -> dkeys (dset curr v a) = done ++ [v] /\ forall w, In w (done ++ [v]) -> dget (dset curr v a) w = Some (value (m (Datatypes.S k)) w)).
        { intros a ->. split; [rewrite dkeys_dset; assert (Em : dmem curr v = false) by (apply dmem_false; rewrite Hk; assumption); rewrite Em, Hk; reflexivity|].
          intros w Hw. rewrite dget_dset. destruct (eqd w v) as [->|Hne]; [reflexivity|]. apply in_app_or in Hw. destruct Hw as [Hw|[Hw|[]]]; [auto|congruence]. }
        destruct Hin as [Hin|Hin].
        * specialize (Rv Hin done rest Enn). apply vn_in in Hin as Hin'. destruct Hin' as (j & Hj & Ev).
          eexists _, _. split; [|split; [|apply Hcurr; reflexivity]].
          -- apply Rv. intros Eo. rewrite Hu1. unfold drawn. rewrite Eo. reflexivity.
          -- rewrite Hu1. unfold drawn. rewrite Ev, !filter_app, !app_length. cbn [filter is_vis negb length]. destruct (Nat.odd (Datatypes.S k)); lia.
        * specialize (Rh Hin done rest Enn). apply hn_in in Hin as Hin'. destruct Hin' as (j & Hj & Ev).
          eexists _, _. split; [|split; [|apply Hcurr; reflexivity]].
          -- apply Rh. intros Eo. rewrite Hu1. unfold drawn. rewrite Eo. reflexivity.
          -- rewrite Hu1. unfold drawn. rewrite Ev, !filter_app, !app_length. cbn [filter is_vis negb length]. destruct (Nat.odd (Datatypes.S k)); lia.
      + exists s. split; [exact Es|]. split; [exact Ea|]. split; [exact Er|]. split.
        * rewrite Hsu, !app_length. cbn [length]. fold k. replace (k + 1 + 1)%nat with (Datatypes.S (Datatypes.S k)) by lia. rewrite (tosses_next b c (Datatypes.S k)) by lia. f_equal. unfold drawn. rewrite Hnodes. destruct nodes_parts as [-> ->].
          rewrite !map_length. rewrite (Permutation_length Hv), (Permutation_length Hh), !map_length, !seq_length. reflexivity.
        * intros i S1 Ei. destruct (Nat.lt_ge_cases i (length (hist ++ [S]))) as [Hi|Hi]; [rewrite nth_error_app1 in Ei by exact Hi; apply Hs; exact Ei|].
          rewrite nth_error_app2 in Ei by exact Hi. rewrite app_length in *. cbn [length] in *. destruct (i - (length hist + 1))%nat as [|j] eqn:Ej; [|destruct j; discriminate]. injection Ei as <-. replace i with (Datatypes.S k) by (unfold k; lia).
          split; [rewrite Hkeys, Hnodes; apply nodes_nodup|]. split; [intros v; rewrite Hkeys, Hnodes; apply nodes_in|]. intros v Hin. apply Hvals. rewrite Hnodes. apply nodes_in. exact Hin.
    - exists uf, traj, hs. auto.
  Qed.
End Run.
