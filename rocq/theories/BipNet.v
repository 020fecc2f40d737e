(** The nodes and the incoming edges of a bipartite network, in order. *)
From Verif Require Import Py PyFacts ListFacts Network NetworkSpec NetworkProofs NetworkProofs2 NetworkProofs3 Topology TopologySpec TopologyProofs TopologyProofs2 TopologyProofs3 TopologyProofs4 TopologyProofs5 SubstProofs.
Open Scope string_scope.
Open Scope list_scope.
Open Scope Z_scope.

Section Bip.
  Context {L V : Type} `{EqD L}.

  Lemma dedup_app (l l' : list L) : dedup (l ++ l') = dedup l ++ filter (fun x => if in_dec eqd x l then false else true) (dedup l').
  Proof.
    induction l as [|a l IH]; cbn [app dedup].
    - symmetry. induction (dedup l') as [|x m IHm]; [reflexivity|]. cbn [filter]. destruct (in_dec eqd x []) as [[]|_]. f_equal. assumption.
    - f_equal. rewrite IH, filter_app. f_equal. rewrite filter_filter. apply filter_ext_in. intros x _.
      destruct (eqb_spec a x) as [->|Hne]; destruct (in_dec eqd x (_ :: l)) as [Hi|Hi]; destruct (in_dec eqd x l) as [Hj|Hj]; cbn; try reflexivity; exfalso; first [apply Hi; left; reflexivity|apply Hi; right; assumption|destruct Hi as [Hi|Hi]; contradiction].
  Qed.

  Lemma dedup_star a (B : list L) : NoDup B -> ~ In a B -> B <> [] -> dedup (flat_map (fun v => [a; v; v; a]) B) = a :: B.
  Proof.
    intros HB Ha Hne. induction B as [|v B IH]; [congruence|]. inversion HB as [|? ? Hv HB']; subst. change (flat_map (fun v => [a; v; v; a]) (v :: B)) with ([a; v; v; a] ++ flat_map (fun v => [a; v; v; a]) B).
    assert (E : dedup [a; v; v; a] = [a; v]).
    { assert (Hav : a <> v) by (intros ->; apply Ha; left; reflexivity). cbn [dedup filter]. repeat (match goal with |- context[eqb ?x ?y] => destruct (eqb_spec x y) end; cbn [negb filter]; try congruence). }
    rewrite dedup_app, E. destruct B as [|w B].
    - reflexivity.
    - rewrite IH; [|assumption|intros Hi; apply Ha; right; assumption|discriminate].
      assert (Hall : forall x, In x (w :: B) -> (if in_dec eqd x [a; v; v; a] then false else true) = true).
      { intros x Hx. destruct (in_dec eqd x [a; v; v; a]) as [Hi|_]; [|reflexivity]. exfalso. cbn [In] in Hi. destruct Hi as [<-|[<-|[<-|[<-|[]]]]]; try contradiction; apply Ha; right; assumption. }
      assert (Hf : forall l, (forall x, In x l -> (if in_dec eqd x [a; v; v; a] then false else true) = true) -> filter (fun x => if in_dec eqd x [a; v; v; a] then false else true) l = l) by (induction l as [|y l IHl]; intros Hy; [reflexivity|]; cbn [filter]; rewrite (Hy y (or_introl eq_refl)); f_equal; apply IHl; intros z Hz; apply Hy; right; assumption).
      change (a :: w :: B) with ([a] ++ (w :: B)). rewrite filter_app, (Hf (w :: B) Hall). cbn [filter]. destruct (in_dec eqd a [a; v; v; a]) as [_|Hn]; [reflexivity|exfalso; apply Hn; left; reflexivity].
  Qed.

  Definition bip_nodes (A B : list L) : list L := match A with [] => [] | a :: A => match B with [] => [] | _ => a :: B ++ A end end.

  Lemma bip_nodes_cons a A B : B <> [] -> bip_nodes (a :: A) B = a :: B ++ A.
  Proof. intros HB. destruct B; [congruence|reflexivity]. Qed.

  Lemma ends_bip A B (f : L -> L -> dict string V) : flat_map ends (bip_edges A B f) = flat_map (fun u => flat_map (fun v => [u; v; v; u]) B) A.
  Proof.
    unfold bip_edges. induction A as [|u A IH]; [reflexivity|]. cbn [flat_map]. rewrite flat_map_app, IH. f_equal. clear IH. induction B as [|v B IH]; [reflexivity|]. cbn [flat_map app]. rewrite IH. reflexivity.
  Qed.
  Lemma bip_order A B : NoDup A -> NoDup B -> (forall x, In x A -> ~ In x B) -> dedup (flat_map (fun u => flat_map (fun v => [u; v; v; u]) B) A) = bip_nodes A B.
  Proof.
    intros HA HB Hd. destruct B as [|w B'] eqn:EB.
    - destruct A as [|a A]; [reflexivity|]. cbn [bip_nodes]. clear. induction (a :: A); [reflexivity|assumption].
    - rewrite <- EB in *. assert (Hne : B <> []) by congruence. clear EB w B'. induction A as [|a A IH]; [reflexivity|]. inversion HA as [|? ? Ha HA']; subst.
      rewrite bip_nodes_cons by assumption. cbn [flat_map]. rewrite dedup_app, dedup_star by (try assumption; apply Hd; left; reflexivity). rewrite IH by (try assumption; intros x Hx; apply Hd; right; assumption).
      assert (Hin : forall x, In x (flat_map (fun v => [a; v; v; a]) B) <-> x = a \/ In x B).
      { intros x. rewrite in_flat_map. split.
        - intros (v & Hv & [<-|[<-|[<-|[<-|[]]]]]); auto.
        - intros [->|Hx]; [destruct B as [|v B]; [congruence|]; exists v; split; [left; reflexivity|left; reflexivity]|exists x; split; [assumption|right; left; reflexivity]]. }
      cbn [app]. f_equal. f_equal.
      assert (Hk : forall l, (forall x, In x l -> x <> a /\ ~ In x B) -> filter (fun x => if in_dec eqd x (flat_map (fun v => [a; v; v; a]) B) then false else true) l = l).
      { induction l as [|y l IHl]; intros Hy; [reflexivity|]. cbn [filter]. destruct (in_dec eqd y _) as [Hi|_]; [exfalso; apply Hin in Hi; destruct (Hy y (or_introl eq_refl)); tauto|]. f_equal. apply IHl. intros z Hz. apply Hy. right. assumption. }
      assert (Hz : forall l, (forall x, In x l -> In x B) -> filter (fun x => if in_dec eqd x (flat_map (fun v => [a; v; v; a]) B) then false else true) l = []).
      { induction l as [|y l IHl]; intros Hy; [reflexivity|]. cbn [filter]. destruct (in_dec eqd y _) as [_|Hi]; [|exfalso; apply Hi, Hin; right; apply Hy; left; reflexivity]. apply IHl. intros z Hz. apply Hy. right. assumption. }
      destruct A as [|a2 A]; [reflexivity|]. rewrite bip_nodes_cons by assumption.
      change (a2 :: B ++ A) with ([a2] ++ B ++ A). rewrite !filter_app, (Hz B) by auto. rewrite (Hk [a2]), (Hk A).
      + reflexivity.
      + intros x Hx. split; [intros ->; apply Ha; right; assumption|apply Hd; right; right; assumption].
      + intros x [<-|[]]. split; [intros ->; apply Ha; left; reflexivity|apply Hd; right; left; reflexivity].
  Qed.

  Lemma into_bip_left A B (f : L -> L -> dict string V) u : NoDup A -> (forall x, In x A -> ~ In x B) -> In u A -> into (bip_edges A B f) u = map (fun v => (v, u, f u v)) B.
  Proof.
    intros HA Hd Hu. unfold into, bip_edges.
    assert (Hone : forall w, In w A -> filter (fun e => eqb (tgt e) u) (flat_map (fun v => [(w, v, f w v); (v, w, f w v)]) B) = if eqb w u then map (fun v => (v, u, f u v)) B else []).
    { intros w Hw. assert (HB : forall v, In v B -> v <> u) by (intros v Hv ->; apply (Hd u Hu Hv)). clear Hd. induction B as [|v B IH]; [destruct (eqb w u); reflexivity|].
      cbn [flat_map app filter map]. change (tgt (w, v, f w v)) with v. change (tgt (v, w, f w v)) with w. rewrite (proj2 (eqb_false v u)) by (apply HB; left; reflexivity). rewrite IH by (intros x Hx; apply HB; right; assumption). destruct (eqb_spec w u) as [->|]; reflexivity. }
    clear Hd. induction A as [|a A IH]; [destruct Hu|]. inversion HA as [|? ? Ha HA']; subst. cbn [flat_map]. rewrite filter_app, (Hone a (or_introl eq_refl)). destruct (eqb_spec a u) as [->|Hne].
    - assert (E : filter (fun e => eqb (tgt e) u) (flat_map (fun u0 => flat_map (fun v => [(u0, v, f u0 v); (v, u0, f u0 v)]) B) A) = []); [|rewrite E; apply app_nil_r].
      assert (Hno : forall w, In w A -> w <> u) by (intros w Hw ->; contradiction). assert (Hone' := fun w Hw => Hone w (or_intror Hw)). clear - Hno Hone'. induction A as [|w A IH]; [reflexivity|]. cbn [flat_map]. rewrite filter_app, (Hone' w (or_introl eq_refl)), (proj2 (eqb_false w u)) by (apply Hno; left; reflexivity). apply IH; intros x Hx; [apply Hno|apply Hone']; right; assumption.
    - destruct Hu as [->|Hu]; [congruence|]. apply IH; [assumption|assumption|intros w Hw; apply Hone; right; assumption].
  Qed.
  Lemma into_bip_right A B (f : L -> L -> dict string V) v : NoDup B -> (forall x, In x A -> ~ In x B) -> In v B -> into (bip_edges A B f) v = map (fun u => (u, v, f u v)) A.
  Proof.
    intros HB Hd Hv. unfold into, bip_edges. induction A as [|u A IH]; [reflexivity|]. cbn [flat_map map]. rewrite filter_app, IH by (intros x Hx; apply Hd; right; assumption).
    assert (Huv : forall w, In w B -> u <> w) by (intros w Hw ->; apply (Hd w (or_introl eq_refl) Hw)). 
    assert (E : filter (fun e => eqb (tgt e) v) (flat_map (fun v => [(u, v, f u v); (v, u, f u v)]) B) = [(u, v, f u v)]); [|rewrite E; reflexivity].
    clear IH Hd. assert (Hu : u <> v) by (apply Huv; assumption). clear Huv. 
    assert (Hg : forall l, NoDup l -> filter (fun e => eqb (tgt e) v) (flat_map (fun v => [(u, v, f u v); (v, u, f u v)]) l) = if in_dec eqd v l then [(u, v, f u v)] else []).
    { induction l as [|w l IH]; intros Hl; [reflexivity|]. inversion Hl as [|? ? Hw Hl']; subst. cbn [flat_map app filter]. change (tgt (u, w, f u w)) with w. change (tgt (w, u, f u w)) with u. rewrite (proj2 (eqb_false u v) Hu), (IH Hl').
      destruct (eqb_spec w v) as [->|Hne]; destruct (in_dec eqd v (_ :: l)) as [Hi|Hi]; destruct (in_dec eqd v l) as [Hj|Hj]; try contradiction; try reflexivity; exfalso; first [apply Hi; left; reflexivity|apply Hi; right; assumption|destruct Hi as [Hi|Hi]; contradiction]. }
    rewrite Hg by assumption. destruct (in_dec eqd v B); [reflexivity|contradiction].
  Qed.

  Theorem bip_network A B (ea : dict L (dict L (dict string V))) f : NoDup A -> NoDup B -> (forall x, In x A -> ~ In x B) -> A <> [] -> B <> [] ->
    (forall u v, In u A -> In v B -> kwargs_clash ["self"; "i"; "j"] (f u v) = false) ->
    (forall u v, In u A -> In v B -> exists du, dget ea u = Some du /\ dget du v = Some (f u v)) ->
    exists n, bipartite A B (Some ea) = (n, Ok tt) /\ net_rot n = None /\ nodes n = bip_nodes A B /\
      (forall u, In u A -> in_edges n u = Ok (map (fun v => (v, [f u v])) B)) /\
      (forall v, In v B -> in_edges n v = Ok (map (fun u => (u, [f u v])) A)).
  Proof.
    intros HA HB Hd HneA HneB Hk Hf. rewrite (bip_eq A B (Some ea) f Hk Hf).
    destruct (build_graph (bip_edges A B f)) as (n & E & HR & Hrot).
    { intros e He. apply in_bip in He. destruct He as (u & v & Hu & Hv & [-> | ->]); cbn [dat snd]; apply Hk; assumption. }
    exists n. split; [assumption|]. split; [assumption|].
    assert (En : nodes n = bip_nodes A B) by (rewrite (nodes_R _ _ HR), map_fst_graph_of, ends_bip; apply bip_order; assumption).
    split; [assumption|].
    assert (Hnode : forall x, In x A \/ In x B -> is_nodeb (graph_of (bip_edges A B f)) x = true).
    { intros x Hx. apply is_nodeb_true. unfold is_node. rewrite map_fst_graph_of, ends_bip, bip_order by assumption. unfold bip_nodes. destruct A as [|a A]; [congruence|]. destruct B as [|w B]; [congruence|].
      destruct Hx as [[->|Hx]|Hx]; [left; reflexivity| |]; right; apply in_or_app; auto. }
    split.
    - intros u Hu. rewrite (in_edges_R _ _ u HR), Hnode by auto. f_equal. unfold in_neighbours. change (edges_into (graph_of (bip_edges A B f)) u) with (into (bip_edges A B f) u). rewrite into_bip_left by assumption.
      rewrite map_map. unfold src. cbn [fst]. rewrite map_id, dedup_id by assumption. apply map_ext_in. intros v Hv. change (between (graph_of (bip_edges A B f)) v u) with (betw (bip_edges A B f) v u). rewrite betw_bip by assumption.
      destruct (in_dec eqd v A) as [Hi|_]; [exfalso; apply (Hd v Hi Hv)|]. destruct (in_dec eqd u A); [|contradiction]. destruct (in_dec eqd v B); [reflexivity|contradiction].
    - intros v Hv. rewrite (in_edges_R _ _ v HR), Hnode by auto. f_equal. unfold in_neighbours. change (edges_into (graph_of (bip_edges A B f)) v) with (into (bip_edges A B f) v). rewrite into_bip_right by assumption.
      rewrite map_map. unfold src. cbn [fst]. rewrite map_id, dedup_id by assumption. apply map_ext_in. intros u Hu. change (between (graph_of (bip_edges A B f)) u v) with (betw (bip_edges A B f) u v). rewrite betw_bip by assumption.
      destruct (in_dec eqd u A); [|contradiction]. destruct (in_dec eqd v B); [reflexivity|contradiction].
  Qed.
End Bip.
