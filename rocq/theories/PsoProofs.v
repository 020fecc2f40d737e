(** * The searches of PsoSpec.v: facts about [first_best] and a reference implementation of the search with one leader *)
From Coq Require Import List ZArith Lia.
From Verif Require Import Py PyFacts ListFacts Network Evolve EvolveSpec Pso PsoSpec.
Import ListNotations.
Open Scope list_scope.
Open Scope nat_scope.

Section Best.
  Context {X F : Type} (f : X -> F) (lt : F -> F -> bool) (Hlt : weak_order lt).
  Notation better a b := (lt (f a) (f b)).

  Lemma wo_irrefl a : lt a a = false.
  Proof. destruct (lt a a) eqn:E; [|reflexivity]. pose proof (wo_asym lt Hlt a a E). congruence. Qed.
  (** being no better is transitive *)
  Lemma no_better_trans a b c : lt a b = false -> lt b c = false -> lt a c = false.
  Proof. intros E1 E2. destruct (lt a c) eqn:E; [|reflexivity]. destruct (wo_cotrans lt Hlt a b c E); congruence. Qed.
  Lemma better_than a b c : lt a b = true -> lt c b = false -> lt a c = true.
  Proof. intros E1 E2. destruct (wo_cotrans lt Hlt a c b E1); congruence. Qed.

  Lemma first_best_one x : first_best f lt [x] x.
  Proof. exists 0. split; [reflexivity|]. split; [intros q [<-|[]]; apply wo_irrefl|]. intros j q Hj. lia. Qed.
  Lemma first_best_snoc l b p : first_best f lt l b -> first_best f lt (l ++ [p]) (if better p b then p else b).
  Proof.
    intros (i & Ei & Hmin & Hfst). assert (Hi : i < length l) by (apply nth_error_Some; congruence). destruct (better p b) eqn:E.
    - exists (length l). split; [rewrite nth_error_app2, Nat.sub_diag by lia; reflexivity|]. split.
      + intros q Hq. apply in_app_or in Hq. destruct Hq as [Hq|[<-|[]]]; [|apply wo_irrefl]. apply (no_better_trans _ (f b)); [apply Hmin, Hq|apply (wo_asym lt Hlt), E].
      + intros j q Hj Ej. rewrite nth_error_app1 in Ej by lia. apply nth_error_In in Ej. apply (better_than _ (f b)); [exact E|apply Hmin, Ej].
    - exists i. split; [rewrite nth_error_app1 by lia; exact Ei|]. split.
      + intros q Hq. apply in_app_or in Hq. destruct Hq as [Hq|[<-|[]]]; [apply Hmin, Hq|exact E].
      + intros j q Hj Ej. rewrite nth_error_app1 in Ej by lia. exact (Hfst j q Hj Ej).
  Qed.
  Lemma first_best_in l b : first_best f lt l b -> In b l.
  Proof. intros (i & Ei & _). exact (nth_error_In _ _ Ei). Qed.
  Lemma first_best_min l b q : first_best f lt l b -> In q l -> better q b = false.
  Proof. intros (i & _ & Hm & _). apply Hm. Qed.

  (** the loop of the demos *)
  Lemma consider_best l : l <> [] -> exists g, fold_left (consider f lt) l None = Some g /\ first_best f lt l g.
  Proof.
    induction l as [|p l IH] using rev_ind; [congruence|]. intros _. rewrite fold_left_app. cbn [fold_left]. destruct l as [|q l].
    - exists p. split; [reflexivity|apply first_best_one].
    - destruct IH as (g & -> & Hg); [discriminate|]. exists (if better p g then p else g). split; [cbn [consider]; destruct (better p g); reflexivity|apply first_best_snoc, Hg].
  Qed.

  Lemma upto_S {Y} (s : nat -> Y) k : upto s (S k) = upto s k ++ [s (S k)].
  Proof. unfold upto. rewrite (seq_S (S k)), map_app. reflexivity. Qed.
  Lemma in_upto {Y} (s : nat -> Y) k l : l <= k -> In (s l) (upto s k).
  Proof. intros Hl. apply in_map, in_seq. lia. Qed.
  Lemma upto_in {Y} (s : nat -> Y) k x : In x (upto s k) -> exists l, l <= k /\ x = s l.
  Proof. intros Hx. apply in_map_iff in Hx. destruct Hx as (l & <- & Hl). apply in_seq in Hl. exists l. split; [lia|reflexivity]. Qed.

  (** ** The search with one leader, as a recursive function *)
  Section One.
    Context (mv : X -> X -> X) (vel : nat -> X -> X -> X -> X -> X) (n : nat).
    Notation particle := (X * X * X)%type.

    Definition moved (m : nat) (g : X) (q : particle) : particle :=
      let '(x, p, v) := q in let v' := vel m x p v g in let x' := mv x v' in (x', if better x' p then x' else p, v').
    Definition led (g : X) (q q' : particle) : X :=
      let '(_, p, _) := q in let '(x', p', _) := q' in if better x' p then (if better p' g then p' else g) else g.
    (** the leader after particles 0 .. j-1 have moved; [m0] vectors were drawn before the step *)
    Fixpoint lead_in (m0 : nat) (s : nat -> particle) (g : X) (j : nat) : X :=
      match j with
      | 0 => g
      | S j => let g' := lead_in m0 s g j in led g' (s j) (moved (m0 + 2 * j) g' (s j))
      end.
    Definition next_row (m0 : nat) (s : nat -> particle) (g : X) (j : nat) : particle := moved (m0 + 2 * j) (lead_in m0 s g j) (s j).
    Fixpoint search (s0 : nat -> particle) (g0 : X) (k : nat) : (nat -> particle) * X :=
      match k with
      | 0 => (s0, g0)
      | S k => let '(s, g) := search s0 g0 k in (next_row (2 * (k * n)) s g, lead_in (2 * (k * n)) s g n)
      end.

    Context (place push : nat -> X) (g0 : X) (Hg0 : first_best f lt (map place (seq 0 n)) g0).
    Let s0 (j : nat) : particle := (place j, place j, push j).
    Definition pos k j : X := fst (fst (fst (search s0 g0 k) j)).
    Definition best k j : X := snd (fst (fst (search s0 g0 k) j)).
    Definition speed k j : X := snd (fst (search s0 g0 k) j).
    Definition lead k j : X := lead_in (2 * (k * n)) (fst (search s0 g0 k)) (snd (search s0 g0 k)) j.

    Lemma search_at k j : fst (search s0 g0 k) j = (pos k j, best k j, speed k j).
    Proof. unfold pos, best, speed. destruct (fst (search s0 g0 k) j) as [[? ?] ?]. reflexivity. Qed.
    Lemma search_S k j : fst (search s0 g0 (S k)) j = moved (2 * (k * n + j)) (lead k j) (pos k j, best k j, speed k j).
    Proof.
      rewrite <- search_at. cbn [search]. unfold lead. destruct (search s0 g0 k) as [s g]. cbn [fst snd]. unfold next_row. f_equal. lia.
    Qed.
    Lemma lead_0 k : lead k 0 = snd (search s0 g0 k). Proof. reflexivity. Qed.
    Lemma lead_next k : lead (S k) 0 = lead k n.
    Proof. rewrite lead_0. cbn [search]. unfold lead. destruct (search s0 g0 k) as [s g]. reflexivity. Qed.
    Lemma speed_S k j : speed (S k) j = vel (2 * (k * n + j)) (pos k j) (best k j) (speed k j) (lead k j).
    Proof. unfold speed at 1. rewrite search_S. reflexivity. Qed.
    Lemma pos_S k j : pos (S k) j = mv (pos k j) (speed (S k) j).
    Proof. rewrite speed_S. unfold pos at 1. rewrite search_S. reflexivity. Qed.
    Lemma best_S k j : best (S k) j = if better (pos (S k) j) (best k j) then pos (S k) j else best k j.
    Proof. rewrite pos_S, speed_S. unfold best at 1. rewrite search_S. reflexivity. Qed.
    Lemma lead_S k j : lead k (S j) = if better (pos (S k) j) (best k j) then (if better (best (S k) j) (lead k j) then best (S k) j else lead k j) else lead k j.
    Proof.
      rewrite best_S, pos_S, speed_S. unfold lead at 1. cbn [lead_in]. fold (lead k j). rewrite search_at. replace (2 * (k * n) + 2 * j) with (2 * (k * n + j)) by lia. unfold led, moved.
      destruct (better _ (best k j)); reflexivity.
    Qed.

    Lemma best_first k j : first_best f lt (upto (fun l => pos l j) k) (best k j).
    Proof. induction k as [|k IH]; [apply first_best_one|]. rewrite upto_S, best_S. apply first_best_snoc, IH. Qed.
    Lemma best_improves k j : better (best k j) (best (S k) j) = false.
    Proof. rewrite best_S. destruct (better _ (best k j)) eqn:E; [apply (wo_asym lt Hlt), E|apply wo_irrefl]. Qed.

    (** no particle has found anything better than the leader *)
    Lemma lead_optimal k : forall j, j <= n -> (forall i, i < n -> better (best (if i <? j then S k else k) i) (lead k j) = false).
    Proof.
      induction k as [|k IHk].
      - assert (H0 : forall i, i < n -> better (best 0 i) (lead 0 0) = false) by (intros i Hi; apply (first_best_min (map place (seq 0 n))); [exact Hg0|apply in_map, in_seq; lia]).
        induction j as [|j IHj]; intros Hj i Hi; [apply H0, Hi|].
        specialize (IHj ltac:(lia)). rewrite lead_S. assert (Hkeep : better (best 0 j) (lead 0 j) = false) by (specialize (IHj j ltac:(lia)); rewrite Nat.ltb_irrefl in IHj; exact IHj).
        assert (Hold : i <> j -> (i <? S j) = (i <? j)) by (intros Hne; destruct (Nat.ltb_spec i (S j)), (Nat.ltb_spec i j); lia).
        destruct (better (pos 1 j) (best 0 j)) eqn:E1; [destruct (better (best 1 j) (lead 0 j)) eqn:E2|].
        + destruct (Nat.eq_dec i j) as [->|Hne]; [destruct (Nat.ltb_spec j (S j)); [apply wo_irrefl|lia]|]. rewrite Hold by assumption. apply (no_better_trans _ (f (lead 0 j))); [apply IHj, Hi|apply (wo_asym lt Hlt), E2].
        + destruct (Nat.eq_dec i j) as [->|Hne]; [destruct (Nat.ltb_spec j (S j)); [exact E2|lia]|]. rewrite Hold by assumption. apply IHj, Hi.
        + destruct (Nat.eq_dec i j) as [->|Hne]; [|rewrite Hold by assumption; apply IHj, Hi]. destruct (Nat.ltb_spec j (S j)); [|lia]. rewrite best_S, E1. exact Hkeep.
      - assert (H0 : forall i, i < n -> better (best (S k) i) (lead (S k) 0) = false).
        { intros i Hi. rewrite lead_next. specialize (IHk n ltac:(lia) i Hi). destruct (Nat.ltb_spec i n); [exact IHk|lia]. }
        induction j as [|j IHj]; intros Hj i Hi; [apply H0, Hi|].
        specialize (IHj ltac:(lia)). rewrite lead_S. assert (Hkeep : better (best (S k) j) (lead (S k) j) = false) by (specialize (IHj j ltac:(lia)); rewrite Nat.ltb_irrefl in IHj; exact IHj).
        assert (Hold : i <> j -> (i <? S j) = (i <? j)) by (intros Hne; destruct (Nat.ltb_spec i (S j)), (Nat.ltb_spec i j); lia).
        destruct (better (pos (S (S k)) j) (best (S k) j)) eqn:E1; [destruct (better (best (S (S k)) j) (lead (S k) j)) eqn:E2|].
        + destruct (Nat.eq_dec i j) as [->|Hne]; [destruct (Nat.ltb_spec j (S j)); [apply wo_irrefl|lia]|]. rewrite Hold by assumption. apply (no_better_trans _ (f (lead (S k) j))); [apply IHj, Hi|apply (wo_asym lt Hlt), E2].
        + destruct (Nat.eq_dec i j) as [->|Hne]; [destruct (Nat.ltb_spec j (S j)); [exact E2|lia]|]. rewrite Hold by assumption. apply IHj, Hi.
        + destruct (Nat.eq_dec i j) as [->|Hne]; [|rewrite Hold by assumption; apply IHj, Hi]. destruct (Nat.ltb_spec j (S j)); [|lia]. rewrite (best_S (S k)), E1. exact Hkeep.
    Qed.
    Lemma lead_step k j : j < n -> lead k (S j) = lead k j /\ better (best (S k) j) (lead k j) = false \/ lead k (S j) = best (S k) j /\ better (best (S k) j) (lead k j) = true.
    Proof.
      intros Hj. rewrite lead_S. destruct (better (pos (S k) j) (best k j)) eqn:E1.
      - destruct (better (best (S k) j) (lead k j)) eqn:E2; auto.
      - left. split; [reflexivity|]. rewrite best_S, E1. pose proof (lead_optimal k j ltac:(lia) j Hj) as Ho. rewrite Nat.ltb_irrefl in Ho. exact Ho.
    Qed.
    Lemma best_found k j : exists l, l <= k /\ best k j = pos l j.
    Proof. destruct (upto_in _ _ _ (first_best_in _ _ (best_first k j))) as (l & Hl & E). eauto. Qed.
    Lemma lead_found k : exists l j, l <= k /\ j < n /\ lead k 0 = pos l j.
    Proof.
      induction k as [|k (l & j & Hl & Hj & E)].
      - apply first_best_in in Hg0. apply in_map_iff in Hg0. destruct Hg0 as (j & Ej & Hj). apply in_seq in Hj. exists 0, j. split; [lia|]. split; [lia|]. rewrite lead_0. symmetry. exact Ej.
      - rewrite lead_next. assert (Hall : forall m, m <= n -> exists l j, l <= S k /\ j < n /\ lead k m = pos l j); [|apply Hall; lia].
        induction m as [|m IH]; intros Hm; [exists l, j; split; [lia|]; auto|]. destruct (lead_step k m ltac:(lia)) as [[-> _]|[-> _]]; [apply IH; lia|].
        destruct (best_found (S k) m) as (l' & Hl' & E'). exists l', m. auto.
    Qed.

    Theorem search_correct : swarm_search f lt mv vel n pos best speed lead.
    Proof.
      split.
      - intros k j _. apply speed_S.
      - intros k j _. apply pos_S.
      - intros k j _. apply best_first.
      - exact Hg0.
      - exact lead_step.
      - exact lead_next.
      - exact lead_found.
      - intros k l j Hl Hj. apply (no_better_trans _ (f (best k j))); [apply (first_best_min _ _ _ (best_first k j)), (in_upto (fun l => pos l j)), Hl|].
        pose proof (lead_optimal k 0 ltac:(lia) j Hj) as Ho. exact Ho.
      - intros k l Hl. destruct (lead_found l) as (l' & j & Hl' & Hj & ->). apply (no_better_trans _ (f (best k j))); [apply (first_best_min _ _ _ (best_first k j)), (in_upto (fun l => pos l j)); lia|].
        pose proof (lead_optimal k 0 ltac:(lia) j Hj) as Ho. exact Ho.
    Qed.
  End One.
End Best.

(** ** Dictionaries that give the [j]-th label the [j]-th value *)
Section Row.
  Context {L A : Type} `{EqD L}.
  Definition row (vs : list L) (s : nat -> A) : dict L A := combine vs (map s (seq 0 (length vs))).
  Lemma combine_snoc {X Y} (l : list X) (l' : list Y) x y : length l = length l' -> combine (l ++ [x]) (l' ++ [y]) = combine l l' ++ [(x, y)].
  Proof. revert l'. induction l as [|a l IH]; intros [|b l'] E; try discriminate; [reflexivity|]. cbn [app combine]. rewrite IH by (cbn in E; lia). reflexivity. Qed.
  Lemma row_snoc vs v s : row (vs ++ [v]) s = row vs s ++ [(v, s (length vs))].
  Proof. unfold row. rewrite app_length. cbn [length]. rewrite Nat.add_1_r, seq_S, map_app. apply combine_snoc. rewrite map_length, seq_length. reflexivity. Qed.
  Lemma dkeys_row vs s : dkeys (row vs s) = vs.
  Proof. induction vs as [|v vs IH] using rev_ind; [reflexivity|]. rewrite row_snoc, dkeys_app, IH. reflexivity. Qed.
  Lemma length_row vs s : length (row vs s) = length vs.
  Proof. rewrite <- (dkeys_row vs s) at 2. unfold dkeys. rewrite map_length. reflexivity. Qed.
  Lemma vals_row vs s : map snd (row vs s) = map s (seq 0 (length vs)).
  Proof. induction vs as [|v vs IH] using rev_ind; [reflexivity|]. rewrite row_snoc, map_app, IH, app_length. cbn [length map snd]. rewrite Nat.add_1_r, seq_S, map_app. reflexivity. Qed.
  Lemma dget_row vs s j v : NoDup vs -> nth_error vs j = Some v -> dget (row vs s) v = Some (s j).
  Proof.
    intros Hnd Ej. apply dget_in; [rewrite dkeys_row; exact Hnd|]. revert Hnd Ej. induction vs as [|w vs IH] using rev_ind; intros Hnd Ej; [destruct j; discriminate|].
    rewrite row_snoc. apply in_or_app. destruct (Nat.lt_ge_cases j (length vs)) as [Hlt|Hge].
    - left. apply IH; [|rewrite nth_error_app1 in Ej by assumption; exact Ej]. apply NoDup_remove_1 in Hnd. rewrite app_nil_r in Hnd. exact Hnd.
    - right. rewrite nth_error_app2 in Ej by assumption. destruct (j - length vs) as [|m] eqn:Em; [|destruct m; discriminate]. injection Ej as ->. left. f_equal. f_equal. lia.
  Qed.
  Lemma dset_row vs v s : NoDup (vs ++ [v]) -> dset (row vs s) v (s (length vs)) = row (vs ++ [v]) s.
  Proof. intros Hnd. rewrite row_snoc. apply dset_new. rewrite dkeys_row. apply NoDup_remove_2 in Hnd. rewrite app_nil_r in Hnd. exact Hnd. Qed.
  Lemma row_ext vs s s' : (forall j, j < length vs -> s j = s' j) -> row vs s = row vs s'.
  Proof. intros E. unfold row. f_equal. apply map_ext_in. intros j Hj. apply in_seq in Hj. apply E. lia. Qed.
End Row.

Section Init.
  Context {X F L V : Type} `{EqD X} `{EqD L} (f : X -> F) (lt : F -> F -> bool) (place push : nat -> X).
  Definition start (j : nat) : X * X * X := (place j, place j, push j).
  Lemma init_from_eq vs : forall done g, NoDup (done ++ vs) ->
    init_from f lt place push (length done) vs (row done start) g = (row (done ++ vs) start, fold_left (consider f lt) (map place (seq (length done) (length vs))) g).
  Proof.
    induction vs as [|v vs IH]; intros done g Hnd; [rewrite app_nil_r; reflexivity|]. cbn [init_from].
    change (place (length done), place (length done), push (length done)) with (start (length done)).
    assert (Hnd' : NoDup ((done ++ [v]) ++ vs)) by (rewrite <- app_assoc; exact Hnd).
    rewrite dset_row. 2: { clear -Hnd'. induction vs as [|w vs IH] using rev_ind; [rewrite app_nil_r in Hnd'; exact Hnd'|]. apply IH. rewrite app_assoc in Hnd'. apply NoDup_remove_1 in Hnd'. rewrite app_nil_r in Hnd'. exact Hnd'. }
    replace (S (length done)) with (length (done ++ [v])) by (rewrite app_length; cbn [length]; lia). rewrite (IH (done ++ [v])) by exact Hnd'. rewrite <- app_assoc. cbn [app length seq map fold_left].
    rewrite app_length. cbn [length]. rewrite Nat.add_1_r. reflexivity.
  Qed.
  Lemma init_swarm_eq (n : network L V) : NoDup (nodes n) ->
    init_swarm f lt place push n = (row (nodes n) start, fold_left (consider f lt) (map place (seq 0 (length (nodes n)))) None).
  Proof. intros Hnd. apply (init_from_eq (nodes n) [] None Hnd). Qed.
End Init.
