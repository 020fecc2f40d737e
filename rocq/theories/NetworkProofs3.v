(** Adjacency matrix and networkx conversion. *)
From Verif Require Import Py PyFacts Network NetworkSpec NetworkProofs NetworkProofs2.
Open Scope Z_scope.

Section Proofs.
  Context {L V : Type} `{EqD L}.
  Notation network := (network L V).
  Notation graph := (graph L V).
  Notation attrs := (dict string V).
  Notation edge_t := (L * L * attrs)%type.
  Implicit Types (es : list edge_t) (g : graph) (v w i j u : L) (ns : dict L (node L V)) (n : network).

  (** *** The enumeration keeps the order of parallel edges *)

  Lemma betw_app es es' i j : betw (es ++ es') i j = betw es i j ++ betw es' i j.
  Proof. unfold betw. rewrite filter_app, map_app. reflexivity. Qed.

  Lemma betw_flat_map {A} (f : A -> list edge_t) (l : list A) i j :
    betw (flat_map f l) i j = flat_map (fun x => betw (f x) i j) l.
  Proof. induction l as [|x xs IH]; cbn [flat_map]; [reflexivity|]. rewrite betw_app, IH. reflexivity. Qed.

  Lemma flat_map_nil {A B} (f : A -> list B) (l : list A) :
    (forall x, In x l -> f x = []) -> flat_map f l = [].
  Proof. induction l as [|x xs IH]; cbn; intros Hf; [reflexivity|]. rewrite Hf by auto. apply IH. auto. Qed.

  (** in a dict with distinct keys only the entry under [k] contributes *)
  Lemma flat_map_single {W B} (f : L * W -> list B) (d : dict L W) k :
    NoDup (dkeys d) -> (forall x, In x d -> fst x <> k -> f x = []) ->
    flat_map f d = match dget d k with Some x => f (k, x) | None => [] end.
  Proof.
    induction d as [|[k0 x0] d IH]; cbn; intros Hnd Hf; [reflexivity|].
    inversion Hnd as [|? ? Hni Hnd']; subst.
    destruct (eqd k k0) as [->|Hne].
    - rewrite flat_map_nil; [apply app_nil_r|]. intros [k1 x1] Hin. apply Hf; [auto|]. cbn. intros ->.
      apply Hni. unfold dkeys. apply in_map_iff. exists (k0, x1). auto.
    - rewrite Hf; [|auto|cbn; congruence]. cbn. apply IH; auto.
  Qed.

  Lemma betw_const (l : list attrs) x y i j :
    betw (map (fun k => (x, y, k)) l) i j = if eqb x i && eqb y j then l else [].
  Proof.
    unfold betw. destruct (eqb x i && eqb y j) eqn:E.
    - rewrite filter_true.
      + rewrite map_map. unfold dat. cbn. apply map_id.
      + intros e He. apply in_map_iff in He. destruct He as (a & <- & _). exact E.
    - rewrite filter_false; [reflexivity|]. intros e He. apply in_map_iff in He. destruct He as (a & <- & _). exact E.
  Qed.

  Lemma betw_edges n g i j : R n g -> betw (edges n) i j = between g i j.
  Proof.
    intros [En Hok]. unfold edges. rewrite En, betw_flat_map.
    rewrite (flat_map_single _ (repr g) j).
    - rewrite dget_repr. change (between g i j) with (betw (g_edges g) i j).
      destruct (dget (g_nodes g) j) as [b|] eqn:E; cbn [option_map snd fst].
      + cbn [rnode n_inc]. rewrite betw_flat_map, (flat_map_single _ _ i).
        * rewrite dget_inc_of'. destruct (betw (g_edges g) i j); [reflexivity|].
          rewrite betw_const. cbn. rewrite !eqb_refl. reflexivity.
        * apply NoDup_inc_of.
        * intros x _ Hx. rewrite betw_const. destruct (eqb_spec (fst x) i); [contradiction|reflexivity].
      + destruct (betw (g_edges g) i j) eqn:Eb; [reflexivity|]. exfalso.
        assert (Hb : between g i j <> []) by (change (betw (g_edges g) i j <> []); congruence).
        apply (between_nodes g i j Hok) in Hb. apply dget_none in E. destruct Hb. contradiction.
    - rewrite dkeys_repr. apply Hok.
    - intros x _ Hx. rewrite betw_flat_map. apply flat_map_nil. intros y _. rewrite betw_const.
      destruct (eqb_spec (fst x) j); [contradiction|]. rewrite andb_false_r. reflexivity.
  Qed.

  Lemma edges_nodes n g e : R n g -> In e (edges n) -> is_node g (src e) /\ is_node g (tgt e).
  Proof.
    intros HR Hin. assert (Hp := edges_R n g HR). destruct HR as [_ Hok]. apply Hok.
    eapply Permutation_in; eauto.
  Qed.

  (** *** Adjacency matrix *)
  Section Adj.
    Context {N : Type} (zero one : N) (add : N -> N -> N) (num : V -> N).

    Definition entry (M : list (list N)) (i j : nat) : option N :=
      match nth_error M i with Some row => nth_error row j | None => None end.

    Definition square (k : nat) (M : list (list N)) : Prop :=
      length M = k /\ forall row, In row M -> length row = k.

    Lemma square_repeat k : square k (repeat (repeat zero k) k).
    Proof.
      split; [apply repeat_length|]. intros row Hin. apply repeat_spec in Hin. subst. apply repeat_length.
    Qed.

    Lemma entry_repeat (k i j : nat) : (i < k)%nat -> (j < k)%nat -> entry (repeat (repeat zero k) k) i j = Some zero.
    Proof.
      intros Hi Hj. unfold entry. rewrite !nth_error_repeat by assumption. reflexivity.
    Qed.

    Lemma mat_upd_ok (k : nat) M (i j : nat) f : square k M -> (i < k)%nat -> (j < k)%nat ->
      exists M', mat_upd M i j f = Ok M' /\ square k M' /\
        forall i' j' : nat, entry M' i' j' = if Nat.eq_dec i' i then (if Nat.eq_dec j' j then option_map f (entry M i' j') else entry M i' j')
                                       else entry M i' j'.
    Proof.
      intros [HM Hrow] Hi Hj. unfold mat_upd.
      destruct (nth_error M i) as [row|] eqn:Er; [|apply nth_error_None in Er; lia].
      rewrite (Hrow row) by (eapply nth_error_In; eauto). apply Nat.ltb_lt in Hj. rewrite Hj.
      eexists. split; [reflexivity|]. split.
      - split; [rewrite length_upd_nth; assumption|]. intros r Hr. apply In_nth_error in Hr. destruct Hr as [x Hx].
        rewrite nth_error_upd_nth in Hx. destruct (Nat.eq_dec x i) as [->|].
        + rewrite Er in Hx. cbn in Hx. inversion Hx. rewrite length_upd_nth. apply Hrow. eapply nth_error_In; eauto.
        + apply Hrow. eapply nth_error_In; eauto.
      - intros i' j'. unfold entry. rewrite nth_error_upd_nth. destruct (Nat.eq_dec i' i) as [->|].
        + rewrite Er. cbn. rewrite nth_error_upd_nth. reflexivity.
        + destruct (nth_error M i'); reflexivity.
    Qed.

    Definition step_fn (sum : bool) (weight : option string) (x : N) (a : attrs) : N :=
      if sum then add x (edge_weight one num weight a) else edge_weight one num weight a.

    Definition adj_step (nl : list L) (sum : bool) (weight : option string) (M : list (list N)) (e : edge_t)
      : res (list (list N)) :=
      let '(n1, n2, a) := e in
      i <- of_opt ValueError (py_find nl n1) ;;
      j <- of_opt ValueError (py_find nl n2) ;;
      mat_upd M i j (fun x => if sum then add x (edge_weight one num weight a) else edge_weight one num weight a).

    Lemma adj_fold k (nl : list L) sum weight es M :
      NoDup nl -> (length nl <= k)%nat -> square k M ->
      (forall e, In e es -> In (src e) nl /\ In (tgt e) nl) ->
      exists M', rfold (adj_step nl sum weight) es M = Ok M' /\ square k M' /\
        forall (i j : nat) u v, nth_error nl i = Some u -> nth_error nl j = Some v ->
          entry M' i j = option_map (fun x => fold_left (step_fn sum weight) (betw es u v) x) (entry M i j).
    Proof.
      intros Hnd Hlen. revert M. induction es as [|[[n1 n2] a] es IH]; intros M HM Hin; cbn [rfold].
      - exists M. split; [reflexivity|]. split; [assumption|]. intros. destruct (entry M i j); reflexivity.
      - destruct (Hin (n1, n2, a) (or_introl eq_refl)) as [H1 H2]. unfold src, tgt in H1, H2. cbn in H1, H2.
        destruct (py_find_in _ _ H1) as [p Ep], (py_find_in _ _ H2) as [q Eq].
        assert (Hp := py_find_some _ _ _ Ep). assert (Hq := py_find_some _ _ _ Eq).
        assert (Lp : (p < length nl)%nat) by (apply nth_error_Some; congruence).
        assert (Lq : (q < length nl)%nat) by (apply nth_error_Some; congruence).
        unfold adj_step at 1. rewrite Ep, Eq. cbn [of_opt rbind].
        destruct (mat_upd_ok k M p q (fun x => step_fn sum weight x a) HM ltac:(lia) ltac:(lia)) as (M1 & E1 & S1 & G1).
        unfold step_fn in E1 at 1. rewrite E1. cbn [rbind].
        destruct (IH M1 S1) as (M' & E' & S' & G').
        { intros e He. apply Hin. right. assumption. }
        exists M'. split; [exact E'|]. split; [assumption|]. intros i j u v Hu Hv.
        rewrite (G' i j u v Hu Hv), G1, betw_cons. unfold src, tgt. cbn [fst snd].
        destruct (Nat.eq_dec i p) as [->|Hip].
        + replace u with n1 by congruence. rewrite eqb_refl.
          destruct (Nat.eq_dec j q) as [->|Hjq].
          * replace v with n2 by congruence. rewrite eqb_refl. cbn. destruct (entry M p q); reflexivity.
          * destruct (eqb_spec n2 v) as [->|]; [|reflexivity]. exfalso. apply Hjq.
            rewrite (py_find_nodup _ _ _ Hnd Hv) in Eq. congruence.
        + destruct (eqb_spec n1 u) as [->|]; [|reflexivity]. exfalso. apply Hip.
          rewrite (py_find_nodup _ _ _ Hnd Hu) in Ep. congruence.
    Qed.

    Lemma adj_fold_err k (nl : list L) sum weight es M :
      NoDup nl -> (length nl <= k)%nat -> square k M ->
      (exists e, In e es /\ (~ In (src e) nl \/ ~ In (tgt e) nl)) ->
      rfold (adj_step nl sum weight) es M = Err ValueError.
    Proof.
      intros Hnd Hlen. revert M. induction es as [|[[n1 n2] a] es IH]; intros M HM (e & He & Hn); cbn [rfold]; [contradiction|].
      unfold adj_step at 1.
      destruct (py_find nl n1) as [p|] eqn:Ep; [|reflexivity]. cbn [of_opt rbind].
      destruct (py_find nl n2) as [q|] eqn:Eq; [|reflexivity]. cbn [of_opt rbind].
      assert (Hp := py_find_some _ _ _ Ep). assert (Hq := py_find_some _ _ _ Eq).
      assert (Lp : (p < length nl)%nat) by (apply nth_error_Some; congruence).
      assert (Lq : (q < length nl)%nat) by (apply nth_error_Some; congruence).
      destruct (mat_upd_ok k M p q (fun x => step_fn sum weight x a) HM ltac:(lia) ltac:(lia)) as (M1 & E1 & S1 & G1).
      unfold step_fn in E1 at 1. rewrite E1. cbn [rbind]. apply IH; [assumption|].
      destruct He as [<-|He]; [|eauto]. exfalso. unfold src, tgt in Hn. cbn in Hn.
      apply nth_error_In in Hp, Hq. tauto.
    Qed.

    Lemma fold_last (f : attrs -> N) (l : list attrs) x :
      fold_left (fun _ a => f a) l x = last (map f l) x.
    Proof.
      revert x. induction l as [|a l IH]; intros x; [reflexivity|]. cbn [fold_left map]. rewrite IH.
      destruct l as [|b l]; [reflexivity|]. cbn [map last].
      generalize (map f l). clear. intros l. revert b. 
      assert (G : forall (m : list N) d d', m <> [] -> last m d = last m d').
      { induction m as [|y m IH]; intros d d' Hm; [congruence|]. destruct m; [reflexivity|]. cbn [last]. apply IH. discriminate. }
      intros b. destruct l; [reflexivity|]. apply G. discriminate.
    Qed.
  End Adj.

  (** *** networkx *)

  Definition swap (e : edge_t) : edge_t := (tgt e, src e, dat e).
  Definition outc_of es u : dict L (list attrs) := inc_of (map swap es) u.

  Lemma betw_swap es i j : betw (map swap es) i j = betw es j i.
  Proof.
    induction es as [|e es IH]; [reflexivity|]. cbn [map]. rewrite !betw_cons, IH.
    unfold swap, src, tgt, dat. cbn. rewrite andb_comm. reflexivity.
  Qed.

  Definition attr_ok (a : attrs) : Prop :=
    NoDup (dkeys a) /\
    names ["self"; "node_label"; "node_for_adding"; "in"; "out"; "incoming"; "outgoing";
           "i"; "j"; "u_for_edge"; "v_for_edge"; "key"]%string a = false.

  Lemma names_incl (ps qs : list string) (a : attrs) : incl ps qs -> names qs a = false -> names ps a = false.
  Proof.
    unfold names. intros Hi Hq. apply not_true_is_false. intros Hp. apply existsb_exists in Hp.
    destruct Hp as (p & Hin & Hm). assert (existsb (fun p => dmem a p) qs = true); [|congruence].
    apply existsb_exists. eauto.
  Qed.

  Lemma attr_ok_names (a : attrs) ps : attr_ok a ->
    incl ps ["self"; "node_label"; "node_for_adding"; "in"; "out"; "incoming"; "outgoing";
           "i"; "j"; "u_for_edge"; "v_for_edge"; "key"]%string -> kwargs_clash ps a = false.
  Proof. intros [_ Ha] Hi. eapply names_incl; eauto. Qed.

  Ltac incl_tac := let x := fresh in intros x; cbn; tauto.

  Lemma dupdate_app (acc a : attrs) : NoDup (dkeys (acc ++ a)) -> dupdate acc a = acc ++ a.
  Proof.
    unfold dupdate. revert acc. induction a as [|[k x] a IH]; intros acc Hnd; cbn [fold_left fst snd]; [symmetry; apply app_nil_r|].
    assert (Hk : ~ In k (dkeys acc)).
    { rewrite dkeys_app in Hnd. cbn in Hnd. apply NoDup_remove_2 in Hnd. rewrite in_app_iff in Hnd. tauto. }
    rewrite dset_new by assumption. rewrite IH.
    - rewrite <- app_assoc. reflexivity.
    - rewrite <- app_assoc. assumption.
  Qed.

  Lemma dupdate_nil (a : attrs) : NoDup (dkeys a) -> dupdate [] a = a.
  Proof. intros Hnd. apply (dupdate_app []). assumption. Qed.

  Definition graph_attr_ok g : Prop :=
    (forall v a, In (v, a) (g_nodes g) -> attr_ok a) /\ (forall e, In e (g_edges g) -> attr_ok (dat e)).

  (** phase 1: nodes *)
  Lemma nx_nodes (l : dict L (node L V)) (done : list (L * attrs)) :
    NoDup (map fst done ++ dkeys l) -> (forall v nd, In (v, nd) l -> attr_ok (n_attr nd)) ->
    rfold (fun G vn => nx_add_node G (fst vn) (n_attr (snd vn))) l
          (mkMdg done (map (fun va => (fst va, [])) done)) =
    Ok (mkMdg (done ++ map (fun vn => (fst vn, n_attr (snd vn))) l)
              (map (fun va => (fst va, [])) (done ++ map (fun vn => (fst vn, n_attr (snd vn))) l))).
  Proof.
    revert done. induction l as [|[v nd] l IH]; intros done Hnd Ha; cbn [rfold map].
    - rewrite app_nil_r. reflexivity.
    - cbn [fst snd]. unfold nx_add_node at 1.
      assert (Hv : attr_ok (n_attr nd)) by (eapply Ha; left; reflexivity).
      rewrite (attr_ok_names _ _ Hv) by incl_tac. cbn [g_node g_succ].
      assert (Hni : ~ In v (dkeys done)).
      { unfold dkeys. cbn in Hnd. apply NoDup_remove_2 in Hnd. rewrite in_app_iff in Hnd. tauto. }
      rewrite (proj2 (dget_none _ _) Hni). cbn [rbind].
      rewrite (dset_new done) by assumption.
      rewrite (dset_new (map _ done)).
      2:{ unfold dkeys. rewrite map_map. cbn. assumption. }
      rewrite dupdate_nil by apply Hv.
      refine (eq_trans (f_equal (fun m => rfold _ l (mkMdg _ m)) _) (eq_trans (IH (done ++ [(v, n_attr nd)]) _ _) _)).
      + rewrite map_app. reflexivity.
      + rewrite map_app, <- app_assoc. exact Hnd.
      + intros v' nd' Hin. apply (Ha v'). right. assumption.
      + rewrite <- app_assoc. reflexivity.
  Qed.

  (** phase 2: edges *)
  Lemma nx_edges_fold (nl : list (L * attrs)) es0 es :
    NoDup (map fst nl) -> (forall e, In e es -> In (src e) (map fst nl) /\ In (tgt e) (map fst nl) /\ attr_ok (dat e)) ->
    rfold (fun G e => nx_add_edge G (fst (fst e)) (snd (fst e)) (snd e)) es
          (mkMdg nl (map (fun va => (fst va, outc_of es0 (fst va))) nl)) =
    Ok (mkMdg nl (map (fun va => (fst va, outc_of (es0 ++ es) (fst va))) nl)).
  Proof.
    intros Hnd. revert es0. induction es as [|[[u v] a] es IH]; intros es0 Hin; cbn [rfold].
    - rewrite app_nil_r. reflexivity.
    - destruct (Hin (u, v, a) (or_introl eq_refl)) as (Hu & Hv & Ha). unfold src, tgt, dat in Hu, Hv, Ha. cbn in Hu, Hv, Ha.
      cbn [fst snd]. unfold nx_add_edge at 1.
      rewrite !(attr_ok_names _ _ Ha) by incl_tac. cbn [g_node g_succ].
      destruct (dget_key_some nl u Hu) as [bu Eu]. rewrite Eu. cbn [g_node g_succ].
      destruct (dget_key_some nl v Hv) as [bv Ev]. rewrite Ev. cbn [g_node g_succ rbind].
      assert (Es : forall X, dget (map (fun va : L * attrs => (fst va, outc_of X (fst va))) nl) u = Some (outc_of X u)).
      { intros X. rewrite (dget_map_vals (fun k _ => outc_of X k)). rewrite Eu. reflexivity. }
      rewrite Es. rewrite dupdate_nil by apply Ha.
      replace (dset (map (fun va => (fst va, outc_of es0 (fst va))) nl) u (append_incoming (outc_of es0 u) v a))
        with (map (fun va : L * attrs => (fst va, outc_of (es0 ++ [(u, v, a)]) (fst va))) nl).
      + rewrite IH; [rewrite <- app_assoc; reflexivity|]. intros e He. apply Hin. right. assumption.
      + apply dict_ext.
        * rewrite dkeys_dset. unfold dmem. rewrite Es. unfold dkeys. rewrite !map_map. reflexivity.
        * unfold dkeys. rewrite map_map. assumption.
        * intros k. rewrite dget_dset. rewrite !(dget_map_vals (fun k _ => outc_of _ k)).
          unfold outc_of at 1. rewrite map_app. cbn [map]. unfold swap at 2. unfold src, tgt, dat. cbn [fst snd].
          rewrite inc_of_snoc. rewrite (eqb_sym u k). unfold eqb. destruct (eqd k u) as [->|]; [|reflexivity].
          rewrite Eu. reflexivity.
  Qed.

  Lemma R_attr n g v nd : R n g -> graph_attr_ok g -> In (v, nd) (net_nodes n) -> attr_ok (n_attr nd).
  Proof.
    intros [En Hok] [Ha _] Hin. rewrite En in Hin. unfold repr in Hin. apply in_map_iff in Hin.
    destruct Hin as ([v' b] & E & Hin). inversion E; subst. cbn. eapply Ha; eauto.
  Qed.

  Lemma to_networkx_eq n g : R n g -> graph_attr_ok g ->
    to_networkx n = Ok (mkMdg (g_nodes g) (map (fun va => (fst va, outc_of (edges n) (fst va))) (g_nodes g))).
  Proof.
    intros HR Ha. unfold to_networkx.
    assert (E1 := nx_nodes (net_nodes n) []). cbn [app map] in E1. rewrite E1.
    - cbn [rbind].
      assert (En : map (fun vn => (fst vn, n_attr (snd vn))) (net_nodes n) = g_nodes g).
      { destruct HR as [En _]. rewrite En. unfold repr. rewrite map_map. cbn. rewrite <- map_id. apply map_ext. intros []; reflexivity. }
      rewrite En. apply (nx_edges_fold (g_nodes g) [] (edges n)).
      + apply HR.
      + intros e He. destruct (edges_nodes _ _ _ HR He) as [H1 H2]. split; [assumption|]. split; [assumption|].
        apply Ha. eapply Permutation_in; [apply edges_R; eassumption|assumption].
    - apply (R_NoDup n g HR).
    - intros v nd. apply (R_attr n g v nd HR Ha).
  Qed.

  (** building from a node list and an edge list *)
  Lemma build_nodes (l done : list (L * attrs)) n :
    NoDup (map fst (done ++ l)) -> (forall v a, In (v, a) l -> attr_ok a) ->
    R n (mkG done []) ->
    exists n', mfor l (fun va => add_node (fst va) (snd va)) n = (n', Ok tt) /\ R n' (mkG (done ++ l) []) /\ net_rot n' = net_rot n.
  Proof.
    revert done n. induction l as [|[v a] l IH]; intros done n Hnd Ha HR; cbn [mfor].
    - exists n. rewrite app_nil_r. auto.
    - assert (Hv : attr_ok a) by (eapply Ha; left; reflexivity).
      destruct (add_node_R n _ v a HR) as (n1 & E1 & HR1 & Hr1).
      { apply (attr_ok_names _ _ Hv). incl_tac. }
      { apply (attr_ok_names _ _ Hv). incl_tac. }
      cbn [fst snd]. rewrite (mthen_ok _ _ _ _ E1).
      assert (Hni : ~ In v (map fst done)).
      { rewrite map_app in Hnd. cbn in Hnd. apply NoDup_remove_2 in Hnd. rewrite in_app_iff in Hnd. tauto. }
      assert (Eg : spec_add_node (mkG done []) v a = mkG (done ++ [(v, a)]) []).
      { unfold spec_add_node, ensure_node. destruct (is_nodeb _ v) eqn:E; [apply is_nodeb_true in E; contradiction|].
        cbn. f_equal. rewrite map_app. cbn. destruct (eqd v v); [|congruence]. rewrite dupdate_nil by apply Hv.
        f_equal. rewrite <- map_id. apply map_ext_in. intros [w b] Hin. cbn. destruct (eqd w v) as [->|]; [|reflexivity].
        exfalso. apply Hni. apply in_map_iff. exists (v, b). auto. }
      rewrite Eg in HR1. destruct (IH (done ++ [(v, a)]) n1) as (n2 & E2 & HR2 & Hr2).
      + rewrite <- app_assoc. assumption.
      + intros v' a' Hin. apply (Ha v'). right. assumption.
      + assumption.
      + exists n2. rewrite <- app_assoc in HR2. split; [assumption|]. split; [assumption|congruence].
  Qed.

  Lemma ensure_node_id g v : is_node g v -> ensure_node g v = g.
  Proof. intros Hv. unfold ensure_node. apply is_nodeb_true in Hv. rewrite Hv. reflexivity. Qed.

  Lemma build_edges (nl : list (L * attrs)) es done n :
    (forall e, In e es -> In (src e) (map fst nl) /\ In (tgt e) (map fst nl) /\ kwargs_clash ["self"; "i"; "j"]%string (dat e) = false) ->
    R n (mkG nl done) ->
    exists n', mfor es (fun e => add_edge (fst (fst e)) (snd (fst e)) (snd e)) n = (n', Ok tt) /\ R n' (mkG nl (done ++ es)) /\ net_rot n' = net_rot n.
  Proof.
    revert done n. induction es as [|[[u v] a] es IH]; intros done n Ha HR; cbn [mfor].
    - exists n. rewrite app_nil_r. auto.
    - destruct (Ha (u, v, a) (or_introl eq_refl)) as (Hu & Hv & Hk). unfold src, tgt, dat in Hu, Hv, Hk. cbn in Hu, Hv, Hk.
      destruct (add_edge_R n _ u v a HR Hk) as (n1 & E1 & HR1 & Hr1).
      cbn [fst snd]. rewrite (mthen_ok _ _ _ _ E1).
      unfold spec_add_edge in HR1. rewrite (ensure_node_id _ u) in HR1 by exact Hu.
      rewrite (ensure_node_id _ v) in HR1 by exact Hv. cbn in HR1.
      destruct (IH (done ++ [(u, v, a)]) n1) as (n2 & E2 & HR2 & Hr2).
      + intros e He. apply Ha. right. assumption.
      + assumption.
      + exists n2. rewrite <- app_assoc in HR2. split; [assumption|]. split; [assumption|congruence].
  Qed.

  Lemma betw_nx_edges (nl : list (L * attrs)) es i j :
    NoDup (map fst nl) -> (forall e, In e es -> In (src e) (map fst nl)) ->
    betw (nx_edges (mkMdg nl (map (fun va => (fst va, outc_of es (fst va))) nl))) i j = betw es i j.
  Proof.
    intros Hnd Hin. unfold nx_edges. cbn [g_succ]. rewrite betw_flat_map, (flat_map_single _ _ i).
    - rewrite (dget_map_vals (fun k _ => outc_of es k)). destruct (dget nl i) as [b|] eqn:E; cbn [option_map fst snd].
      + rewrite betw_flat_map, (flat_map_single _ _ j).
        * unfold outc_of. rewrite dget_inc_of', betw_swap. destruct (betw es i j); [reflexivity|].
          rewrite betw_const. cbn. rewrite !eqb_refl. reflexivity.
        * apply NoDup_inc_of.
        * intros x _ Hx. rewrite betw_const. destruct (eqb_spec (fst x) j); [contradiction|]. rewrite andb_false_r. reflexivity.
      + symmetry. apply betw_nil. rewrite in_inc_keys. intros (e & He & Hs & _). apply dget_none in E. apply E.
        unfold dkeys. rewrite <- Hs. apply Hin. assumption.
    - unfold dkeys. rewrite map_map. assumption.
    - intros x _ Hx. rewrite betw_flat_map. apply flat_map_nil. intros y _. rewrite betw_const.
      destruct (eqb_spec (fst x) i); [contradiction|reflexivity].
  Qed.

  Lemma nx_edges_in (nl : list (L * attrs)) es e :
    In e (nx_edges (mkMdg nl (map (fun va => (fst va, outc_of es (fst va))) nl))) -> In e es.
  Proof.
    unfold nx_edges. cbn [g_succ]. rewrite in_flat_map. intros (x & Hx & He). apply in_map_iff in Hx.
    destruct Hx as (va & <- & Hva). cbn [fst snd] in He. apply in_flat_map in He. destruct He as ([v l] & Hv & He).
    cbn [fst snd] in He. apply in_map_iff in He. destruct He as (a & <- & Ha).
    unfold outc_of, inc_of in Hv. apply in_map_iff in Hv. destruct Hv as (v' & E & _). inversion E; subst.
    rewrite betw_swap in Ha. unfold betw in Ha. apply in_map_iff in Ha. destruct Ha as (e & <- & He).
    apply filter_In in He. destruct He as [He Hm]. apply andb_true_iff in Hm. destruct Hm as [H1 H2].
    apply eqb_eq in H1. apply eqb_eq in H2. destruct e as [[x y] c]. unfold src, tgt, dat in *. cbn in *. subst. assumption.
  Qed.

  Lemma networkx_roundtrip n g : R n g -> graph_attr_ok g ->
    exists G n', to_networkx n = Ok G /\ from_networkx G = (n', Ok tt) /\
      exists es', R n' (mkG (g_nodes g) es') /\ (forall i j, betw es' i j = between g i j) /\ net_rot n' = None.
  Proof.
    intros HR Ha. eexists. rewrite (to_networkx_eq n g HR Ha).
    set (G := mkMdg _ _).
    destruct (build_nodes (g_nodes g) [] empty_network) as (n1 & E1 & HR1 & Hr1).
    { apply HR. }
    { apply Ha. }
    { apply R_empty. }
    cbn [app] in HR1.
    assert (Hsrc : forall e, In e (edges n) -> In (src e) (map fst (g_nodes g))).
    { intros e He. apply (edges_nodes n g e HR He). }
    destruct (build_edges (g_nodes g) (nx_edges G) [] n1) as (n2 & E2 & HR2 & Hr2).
    { intros e He. apply nx_edges_in in He. destruct (edges_nodes n g e HR He) as [H1 H2].
      split; [assumption|]. split; [assumption|].
      apply attr_ok_names; [|incl_tac]. apply Ha. eapply Permutation_in; [apply edges_R; eassumption|assumption]. }
    { assumption. }
    exists n2. split; [reflexivity|]. split.
    - unfold from_networkx. fold G. change (g_node G) with (g_nodes g). rewrite (mthen_ok _ _ _ _ E1). exact E2.
    - exists (nx_edges G). cbn [app] in HR2. split; [assumption|]. split.
      + intros i j. unfold G. rewrite betw_nx_edges; [|apply HR|assumption]. apply (betw_edges n g i j HR).
      + rewrite Hr2, Hr1. reflexivity.
  Qed.

  (** the length of the edges into / from a node, summed over neighbours, depends only on [betw] *)
  Lemma into_len_betw es (ks : list L) v : NoDup ks -> (forall e, In e es -> In (src e) ks) ->
    length (into es v) = list_sum (map (fun i => length (betw es i v)) ks).
  Proof.
    intros Hnd Hin. rewrite <- (Permutation_length (perm_group src ks (into es v) Hnd ltac:(intros e He; apply filter_In in He; apply Hin; tauto))).
    rewrite flat_map_concat_map. clear Hnd Hin. induction ks as [|k ks IH]; cbn; [reflexivity|].
    rewrite app_length, IH, betw_into. reflexivity.
  Qed.
  Lemma from_len_betw es (ks : list L) v : NoDup ks -> (forall e, In e es -> In (tgt e) ks) ->
    length (from es v) = list_sum (map (fun j => length (betw es v j)) ks).
  Proof.
    intros Hnd Hin. rewrite <- (Permutation_length (perm_group tgt ks (from es v) Hnd ltac:(intros e He; apply filter_In in He; apply Hin; tauto))).
    rewrite flat_map_concat_map. clear Hnd Hin. induction ks as [|k ks IH]; cbn; [reflexivity|].
    rewrite app_length, IH, betw_from. reflexivity.
  Qed.
End Proofs.

Section Reach.
  Context {L V : Type} `{EqD L}.
  Notation network := (network L V).

  Lemma reachable_R (n : network) : reachable n -> exists g, R n g.
  Proof.
    intros [os <-].
    destruct (run_ops_RS os empty_network (empty_graph, None)) as [[HR _] _].
    { split; [apply R_empty|reflexivity]. }
    eauto.
  Qed.

  Lemma filter_perm_length {A} (p : A -> bool) (l l' : list A) : Permutation l l' -> length (filter p l) = length (filter p l').
  Proof.
    induction 1 as [|x l l' Hp IH|x y l|l l' l'' H1 IH1 H2 IH2]; cbn; auto.
    - destruct (p x); cbn; congruence.
    - destruct (p x), (p y); reflexivity.
    - congruence.
  Qed.

  Lemma degrees_exact (n : network) v : reachable n ->
    if in_dec eqd v (nodes n) then
      in_degree n v = Ok (Z.of_nat (length (filter (fun e => eqb (snd (fst e)) v) (edges n)))) /\
      out_degree n v = Ok (Z.of_nat (length (filter (fun e => eqb (fst (fst e)) v) (edges n)))) /\
      (exists di do, in_degree n v = Ok di /\ out_degree n v = Ok do /\ degree n v = Ok (do + di))
    else in_degree n v = Err KeyError /\ out_degree n v = Err KeyError /\ degree n v = Err KeyError.
  Proof.
    intros Hr. destruct (reachable_R n Hr) as [g HR].
    rewrite (in_degree_R n g v HR), (out_degree_R n g v HR), (degree_R n g v HR).
    assert (Hp := edges_R n g HR).
    destruct (in_dec eqd v (nodes n)) as [Hin|Hni]; rewrite (nodes_R n g HR) in *.
    - apply (is_nodeb_true g v) in Hin. rewrite Hin.
      split; [|split]; [f_equal; f_equal; symmetry; apply (filter_perm_length _ _ _ Hp)..|].
      do 2 eexists. split; [reflexivity|]. split; [reflexivity|]. rewrite Nat2Z.inj_add. reflexivity.
    - destruct (is_nodeb g v) eqn:E; [|auto]. apply is_nodeb_true in E. contradiction.
  Qed.

  Lemma refinement (os : list (op (L:=L) (V:=V))) :
    let '(n, outcomes) := run_ops os empty_network in
    let '((g, rot), outcomes') := spec_steps (empty_graph, None) os in
    outcomes = outcomes' /\
    nodes n = map fst (g_nodes g) /\
    net_len n = length (g_nodes g) /\
    (forall v, option_map n_attr (dget (net_nodes n) v) = dget (g_nodes g) v) /\
    (forall v, option_map n_outg (dget (net_nodes n) v) = if is_nodeb g v then Some (map tgt (edges_from g v)) else None) /\
    (forall v, in_edges n v = if is_nodeb g v then Ok (map (fun i => (i, between g i v)) (in_neighbours g v)) else Err KeyError) /\
    (forall i j, edge n i j = match between g i j with [] => Err KeyError | l => Ok l end) /\
    (forall i j, has_edge n i j = match between g i j with [] => false | _ => true end) /\
    Permutation (edges n) (g_edges g) /\
    net_rot n = rot.
  Proof.
    destruct (run_ops_RS os empty_network (empty_graph, None)) as [[HR Hrot] Ho].
    { split; [apply R_empty|reflexivity]. }
    destruct (run_ops os empty_network) as [n outcomes].
    destruct (spec_steps (empty_graph, None) os) as [[g rot] outcomes']. cbn in HR, Hrot, Ho.
    split; [assumption|]. split; [apply nodes_R; assumption|]. split; [apply net_len_R; assumption|].
    split; [|split; [|split; [|split; [|split; [|split]]]]].
    - intros v. destruct HR as [En _]. rewrite En, dget_repr. destruct (dget (g_nodes g) v); reflexivity.
    - intros v. rewrite is_nodeb_dget. destruct HR as [En _]. rewrite En, dget_repr. destruct (dget (g_nodes g) v); reflexivity.
    - intros v. apply in_edges_R. assumption.
    - intros i j. apply edge_R. assumption.
    - intros i j. apply has_edge_R. assumption.
    - apply edges_R. assumption.
    - assumption.
  Qed.

  Lemma raise_no_change (n : network) o e : reachable n -> snd (run_op o n) = Err e ->
    e <> IndexError -> fst (run_op o n) = n.
  Proof.
    intros Hr Herr Hne. destruct (reachable_R n Hr) as [g HR].
    destruct (run_op_RS n (g, net_rot n) o) as [[HR' Hrot'] Ho]; [split; [assumption|reflexivity]|].
    rewrite Herr in Ho. destruct (run_op o n) as [n' r]. cbn [fst snd] in *.
    assert (Es : fst (spec_step (g, net_rot n) o) = (g, net_rot n)).
    { destruct o as [v a|i j a|i j a|i j ks a|i j|v|rs|]; cbn [spec_step] in *;
        repeat match goal with
               | |- context [if ?b then _ else _] => destruct b
               | |- context [match between g i j with _ => _ end] => destruct (between g i j)
               | |- context [match ks with _ => _ end] => destruct ks
               | |- context [let (_, _) := ?x in _] => destruct x
               end; cbn in *; try congruence. }
    rewrite Es in HR', Hrot'. cbn in HR', Hrot'. destruct HR as [E1 _], HR' as [E2 _].
    destruct n as [ns r0], n' as [ns' r0']. cbn in *. congruence.
  Qed.

  Lemma rotation_setter (n : network) rs : reachable n ->
    let ok := (forall k l, In (k, l) rs -> In k (nodes n) /\ forall x, In x l -> In x (nodes n)) in
    (ok -> set_rotation_system rs n = (mkNet (net_nodes n) (Some rs), Ok tt)) /\
    (~ ok -> set_rotation_system rs n = (n, Err AssertionError)).
  Proof.
    intros _ ok. unfold set_rotation_system.
    assert (E : forallb (fun e => dmem (net_nodes n) (fst e) && forallb (fun x => dmem (net_nodes n) x) (snd e)) rs = true <-> ok).
    { rewrite forallb_forall. unfold ok, nodes. split.
      - intros Hf k l Hin. specialize (Hf _ Hin). apply andb_true_iff in Hf. destruct Hf as [H1 H2].
        apply dmem_true in H1. split; [assumption|]. rewrite forallb_forall in H2. intros x Hx. apply dmem_true. auto.
      - intros Hf [k l] Hin. destruct (Hf k l Hin) as [H1 H2]. apply andb_true_iff. split; [apply dmem_true; assumption|].
        rewrite forallb_forall. intros x Hx. apply dmem_true. auto. }
    destruct (forallb _ rs) eqn:Ef; split; intros Hok; try reflexivity.
    - exfalso. apply Hok. apply E. reflexivity.
    - apply E in Hok. discriminate.
  Qed.

  (** adjacency matrix, assembled *)
  Lemma to_adjacency_spec {N} (zero one : N) (add : N -> N -> N) (num : V -> N) (n : network) nodelist sum weight :
    reachable n -> Permutation nodelist (nodes n) ->
    exists M, to_adjacency_matrix zero one add num n (Some nodelist) sum weight = Ok M /\
      length M = net_len n /\ (forall row, In row M -> length row = net_len n) /\
      forall p q u v, nth_error nodelist p = Some u -> nth_error nodelist q = Some v ->
        let ws := match edge n u v with Ok es => map (edge_weight one num weight) es | Err _ => [] end in
        entry M p q = Some (if sum then fold_left add ws zero else last ws zero).
  Proof.
    intros Hr Hperm. destruct (reachable_R n Hr) as [g HR].
    assert (Hnd : NoDup nodelist).
    { eapply Permutation_NoDup; [symmetry; eassumption|]. rewrite (nodes_R n g HR). apply HR. }
    assert (Hlen : length nodelist = net_len n).
    { rewrite (Permutation_length Hperm). unfold nodes, dkeys, net_len. apply map_length. }
    unfold to_adjacency_matrix.
    assert (Enl : match Some nodelist with Some (x :: xs) => x :: xs | _ => nodes n end = nodelist).
    { destruct nodelist; [|reflexivity]. apply Permutation_nil in Hperm. assumption. }
    rewrite Enl. fold (net_len n).
    destruct (adj_fold one add num (net_len n) nodelist sum weight (edges n) _ Hnd ltac:(lia) (square_repeat zero (net_len n)))
      as (M & EM & [S1 S2] & GM).
    { intros e He. destruct (edges_nodes n g e HR He) as [H1 H2]. unfold is_node in *. rewrite <- (nodes_R n g HR) in *.
      split; (eapply Permutation_in; [symmetry; eassumption|assumption]). }
    exists M. split; [exact EM|]. split; [assumption|]. split; [assumption|].
    intros p q u v Hp Hq. rewrite (GM p q u v Hp Hq).
    rewrite entry_repeat; [|rewrite <- Hlen; apply nth_error_Some; congruence..].
    cbn [option_map]. f_equal. rewrite (betw_edges n g u v HR), (edge_R n g u v HR).
    assert (Ews : match match between g u v with [] => Err KeyError | l => Ok l end with
                  | Ok es => map (edge_weight one num weight) es | Err _ => [] end = map (edge_weight one num weight) (between g u v))
      by (destruct (between g u v); reflexivity).
    rewrite Ews. clear Ews. unfold step_fn. destruct sum.
    - generalize zero as z. induction (between g u v) as [|x xs IH]; intros z; cbn; [reflexivity|apply IH].
    - apply fold_last.
  Qed.

  Lemma to_adjacency_default {N} (zero one : N) (add : N -> N -> N) (num : V -> N) (n : network) sum weight :
    to_adjacency_matrix zero one add num n None sum weight = to_adjacency_matrix zero one add num n (Some (nodes n)) sum weight /\
    to_adjacency_matrix zero one add num n (Some []) sum weight = to_adjacency_matrix zero one add num n (Some (nodes n)) sum weight.
  Proof. unfold to_adjacency_matrix. destruct (nodes n) eqn:E; auto. Qed.

  Lemma to_adjacency_err {N} (zero one : N) (add : N -> N -> N) (num : V -> N) (n : network) nodelist sum weight :
    reachable n -> NoDup nodelist -> nodelist <> [] -> incl nodelist (nodes n) ->
    (exists e, In e (edges n) /\ (~ In (fst (fst e)) nodelist \/ ~ In (snd (fst e)) nodelist)) ->
    to_adjacency_matrix zero one add num n (Some nodelist) sum weight = Err ValueError.
  Proof.
    intros Hr Hnd Hne Hincl Hex. unfold to_adjacency_matrix.
    destruct nodelist as [|x xs] eqn:Enl; [congruence|]. rewrite <- Enl in *.
    apply (adj_fold_err one add num (length (net_nodes n)) nodelist sum weight (edges n)).
    - assumption.
    - assert (Hl := NoDup_incl_length Hnd Hincl). unfold nodes, dkeys in Hl. rewrite map_length in Hl. assumption.
    - apply square_repeat.
    - assumption.
  Qed.

  (** networkx, assembled *)
  Definition plain_attrs (n : network) : Prop :=
    (forall v nd, dget (net_nodes n) v = Some nd -> attr_ok (n_attr nd)) /\ (forall e, In e (edges n) -> attr_ok (snd e)).

  Lemma plain_graph (n : network) g : R n g -> plain_attrs n -> graph_attr_ok g.
  Proof.
    intros HR [Hn He]. split.
    - intros v a Hin. destruct HR as [En Hok].
      assert (Hg : dget (g_nodes g) v = Some a) by (apply dget_in; [apply Hok|assumption]).
      apply (Hn v (rnode (g_edges g) v a)). rewrite En, dget_repr, Hg. reflexivity.
    - intros e Hin. apply He. eapply Permutation_in; [symmetry; apply edges_R; eassumption|assumption].
  Qed.

  Lemma networkx_roundtrip_api (n : network) : reachable n -> plain_attrs n ->
    exists G n', to_networkx n = Ok G /\ from_networkx G = (n', Ok tt) /\
      nodes n' = nodes n /\
      (forall v, option_map n_attr (dget (net_nodes n') v) = option_map n_attr (dget (net_nodes n) v)) /\
      (forall i j, edge n' i j = edge n i j) /\
      (forall v, in_degree n' v = in_degree n v /\ out_degree n' v = out_degree n v /\ degree n' v = degree n v).
  Proof.
    intros Hr Hpl. destruct (reachable_R n Hr) as [g HR].
    destruct (networkx_roundtrip n g HR (plain_graph n g HR Hpl)) as (G & n' & E1 & E2 & es' & HR' & Hb & _).
    exists G, n'. split; [assumption|]. split; [assumption|].
    split; [rewrite (nodes_R _ _ HR'), (nodes_R _ _ HR); reflexivity|].
    split; [|split].
    - intros v. destruct HR as [En _], HR' as [En' _]. rewrite En, En', !dget_repr. cbn.
      destruct (dget (g_nodes g) v); reflexivity.
    - intros i j. rewrite (edge_R _ _ i j HR'), (edge_R _ _ i j HR).
      change (between (mkG (g_nodes g) es') i j) with (betw es' i j). rewrite Hb. reflexivity.
    - intros v. rewrite (in_degree_R _ _ v HR'), (in_degree_R _ _ v HR), (out_degree_R _ _ v HR'), (out_degree_R _ _ v HR),
        (degree_R _ _ v HR'), (degree_R _ _ v HR).
      change (is_nodeb (mkG (g_nodes g) es') v) with (is_nodeb g v).
      assert (Hlen : forall w, length (into es' w) = length (into (g_edges g) w) /\ length (from es' w) = length (from (g_edges g) w)).
      { intros w. destruct HR as [_ [Hnd He]], HR' as [_ [_ He']]. split.
        - rewrite (into_len_betw es' _ w Hnd), (into_len_betw (g_edges g) _ w Hnd).
          + f_equal. apply map_ext. intros i. rewrite Hb. reflexivity.
          + intros e Hin. apply He. assumption.
          + intros e Hin. apply He'. assumption.
        - rewrite (from_len_betw es' _ w Hnd), (from_len_betw (g_edges g) _ w Hnd).
          + f_equal. apply map_ext. intros i. rewrite Hb. reflexivity.
          + intros e Hin. apply He. assumption.
          + intros e Hin. apply He'. assumption. }
      destruct (Hlen v) as [H1 H2].
      change (edges_into (mkG (g_nodes g) es') v) with (into es' v). change (edges_into g v) with (into (g_edges g) v).
      change (edges_from (mkG (g_nodes g) es') v) with (from es' v). change (edges_from g v) with (from (g_edges g) v).
      rewrite H1, H2. auto.
  Qed.
End Reach.

Lemma init_network_reachable {V} (k : Z) : reachable (init_network k : network Z V).
Proof.
  exists (map (fun i => OpAddNode i []) (zrange 0 k)). unfold init_network, empty_network, zrange.
  rewrite Z.sub_0_r. generalize (Z.to_nat k) as m. clear k. intros m.
  assert (G : forall a l, NoDup (map fst l ++ map (fun k => 0 + Z.of_nat k) (seq a m)) -> 
    fst (run_ops (map (fun i => OpAddNode i []) (map (fun k => 0 + Z.of_nat k) (seq a m))) (mkNet l None : network Z V)) =
    mkNet (l ++ map (fun i => (i, new_node)) (map (fun k => 0 + Z.of_nat k) (seq a m))) None).
  { induction m as [|m IH]; intros a l Hnd; cbn [seq map run_ops]; [rewrite app_nil_r; reflexivity|].
    cbn [run_op]. unfold add_node. cbn [kwargs_clash existsb dmem dget orb].
    assert (Hni : ~ In (0 + Z.of_nat a) (dkeys l)).
    { cbn [seq map] in Hnd. apply NoDup_remove_2 in Hnd. rewrite in_app_iff in Hnd. unfold dkeys. tauto. }
    assert (Em : dmem l (0 + Z.of_nat a) = false) by (apply dmem_false; assumption).
    unfold mthen at 1, mbind at 1. unfold init_node at 1. cbn [net_nodes]. rewrite Em.
    unfold on_node. cbn [set_nodes net_nodes net_rot]. rewrite dget_dset_eq.
    rewrite (dset_new l) by assumption.
    rewrite dset_same; [|rewrite dget_app, (proj2 (dget_none _ _) Hni); cbn [dget]; destruct (eqd (0 + Z.of_nat a) (0 + Z.of_nat a)); [reflexivity|congruence]].
    specialize (IH (S a) (l ++ [(0 + Z.of_nat a, new_node)])).
    destruct (run_ops _ _) as [n' rs] eqn:E. cbn [fst] in IH |- *. rewrite IH.
    - rewrite <- app_assoc. reflexivity.
    - rewrite map_app, <- app_assoc. exact Hnd. }
  rewrite (G 0%nat []); [reflexivity|]. cbn [map app].
  apply FinFun.Injective_map_NoDup; [intros x y; lia|apply seq_NoDup].
Qed.
