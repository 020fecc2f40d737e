(** * C75: rendering an L-system *)
From Coq Require Import Reals Lia.
From Verif Require Import Py PyFacts Turtle Plot PropTurtle.
Open Scope string_scope.
Open Scope list_scope.

Section Rendering.
  Context {C S : Type} `{EqD C}.
  (** all instructions bound to the symbols, in order *)
  Definition all_instructions (b : dict C (binding S)) (word : list C) : list (instruction S) :=
    flat_map (fun c => match dget b c with Some (One i) => [i] | Some (Many l) => l | None => [] end) word.
  (** [reaches l s s']: the instructions succeed one after the other and lead from s to s' *)
  Inductive reaches : list (instruction S) -> S -> S -> Prop :=
  | reaches_nil s : reaches [] s s
  | reaches_cons i l s s1 s2 : i s = (s1, Ok tt) -> reaches l s1 s2 -> reaches (i :: l) s s2.

  Lemma execute_reaches (l : list (instruction S)) : forall s s', execute l s = (s', Ok tt) <-> reaches l s s'.
  Proof.
    induction l as [|i l IH]; intros s s'; cbn [execute].
    - split; [intros E; injection E as <-; constructor|]. intros Hr. inversion Hr. reflexivity.
    - destruct (i s) as [s1 [[]|e]] eqn:Ei.
      + rewrite IH. split; [intros Hr; econstructor; eassumption|]. intros Hr. inversion Hr as [|? ? ? s1' ? Ei' Hr']. subst. congruence.
      + split; [discriminate|]. intros Hr. inversion Hr as [|? ? ? s1' ? Ei' Hr']. subst. congruence.
  Qed.
  Lemma execute_app (l l' : list (instruction S)) (s : S) : execute (l ++ l') s = match execute l s with (s', Ok _) => execute l' s' | (s', Err e) => (s', Err e) end.
  Proof. revert s. induction l as [|i l IH]; intros s; cbn [app execute]; [reflexivity|]. destruct (i s) as [s1 [u|e]]; [apply IH|reflexivity]. Qed.
  Lemma render_app (b : dict C (binding S)) w w' s : render b (w ++ w') s = match render b w s with (s', Ok _) => render b w' s' | (s', Err e) => (s', Err e) end.
  Proof.
    revert s. induction w as [|c w IH]; intros s; cbn [app render]; [reflexivity|]. destruct (dget b c) as [x|]; [|reflexivity].
    destruct (execute (instructions_of x) s) as [s1 [u|e]]; [apply IH|reflexivity].
  Qed.
  Lemma render_execute (b : dict C (binding S)) w : (forall c, In c w -> dget b c <> None) -> forall s, render b w s = execute (all_instructions b w) s.
  Proof.
    induction w as [|c w IH]; intros Hb s; cbn [render all_instructions flat_map]; [reflexivity|].
    assert (Hc := Hb c (or_introl eq_refl)). assert (Hw : forall c, In c w -> dget b c <> None) by (intros c' Hc'; apply Hb; right; assumption). specialize (IH Hw).
    destruct (dget b c) as [x|]; [|congruence]. rewrite execute_app. destruct x as [i|l]; cbn [instructions_of]; destruct (execute _ s) as [s1 [u|e]]; try reflexivity; apply IH.
  Qed.
End Rendering.

Theorem C75_sequence : forall (C S : Type) (EQ : EqD C) (b : dict C (binding S)) w w' s,
  (forall s1, render b w s = (s1, Ok tt) -> render b (w ++ w') s = render b w' s1) /\
  (forall s1 e, render b w s = (s1, Err e) -> render b (w ++ w') s = (s1, Err e)) /\ render b [] s = (s, Ok tt).
Proof. intros C S EQ b w w' s. rewrite render_app. split; [intros s1 E; rewrite E; reflexivity|]. split; [intros s1 e E; rewrite E; reflexivity|reflexivity]. Qed.
Theorem C75_executes : forall (C S : Type) (EQ : EqD C) (b : dict C (binding S)) w s s', (forall c, In c w -> dget b c <> None) ->
  (render b w s = (s', Ok tt) <-> reaches (all_instructions b w) s s').
Proof. intros C S EQ b w s s' Hb. rewrite render_execute by assumption. apply execute_reaches. Qed.
(** a symbol without binding: the previous symbols have been executed, nothing else *)
Theorem C75_unbound : forall (C S : Type) (EQ : EqD C) (b : dict C (binding S)) w c w' s s', (forall c, In c w -> dget b c <> None) -> reaches (all_instructions b w) s s' ->
  dget b c = None -> render b (w ++ c :: w') s = (s', Err KeyError).
Proof. intros C S EQ b w c w' s s' Hb Hr Hc. apply C75_executes in Hr; [|assumption]. rewrite render_app, Hr. cbn [render]. rewrite Hc. reflexivity. Qed.
(** an instruction that raises: the previous ones have been executed, and the effects of the raising one remain *)
Theorem C75_raises : forall (C S : Type) (EQ : EqD C) (b : dict C (binding S)) w c w' x pre i post s s1 s2 e, (forall c, In c w -> dget b c <> None) -> dget b c = Some x ->
  x = Many (pre ++ i :: post) \/ x = One i /\ pre = [] -> reaches (all_instructions b w ++ pre) s s1 -> i s1 = (s2, Err e) -> render b (w ++ c :: w') s = (s2, Err e).
Proof.
  intros C S EQ b w c w' x pre i post s s1 s2 e Hb Hc Hx Hr Hi. apply execute_reaches in Hr. rewrite execute_app in Hr. rewrite render_app, render_execute by assumption.
  destruct (execute (all_instructions b w) s) as [s0 [[]|e0]]; [|discriminate]. cbn [render]. rewrite Hc.
  assert (E : execute (instructions_of x) s0 = (s2, Err e)). { destruct Hx as [-> |[-> ->]]; cbn [instructions_of]; [rewrite execute_app, Hr; cbn [execute]; rewrite Hi; reflexivity|]. cbn [execute] in *. injection Hr as ->. rewrite Hi. reflexivity. }
  rewrite E. reflexivity.
Qed.

(** ** with a turtle *)
(** a bound method of the turtle; a method that raises leaves the turtle unchanged (turtle.py:60 raises before anything is assigned) *)
Definition method (c : cmd) : instruction turtle := fun t => match step t c with Ok t' => (t', Ok tt) | Err e => (t, Err e) end.
Definition moves (c : cmd) : Prop := match c with Forward _ | Rotate _ => True | _ => False end.

Section Brackets.
  Context {C : Type} (open_ close_ : C).
  (** words in which the brackets match *)
  Inductive matched : list C -> Prop :=
  | matched_nil : matched []
  | matched_other c w : c <> open_ -> c <> close_ -> matched w -> matched (c :: w)
  | matched_nest w w' : matched w -> matched w' -> matched (open_ :: w ++ close_ :: w').
End Brackets.

Lemma execute_methods cs : forall t, execute (map method cs) t = match run cs t with Ok t' => (t', Ok tt) | Err _ => execute (map method cs) t end.
Proof.
  induction cs as [|c cs IH]; intros t; [reflexivity|]. unfold run. cbn [map execute rfold]. unfold method at 1 3. destruct (step t c) as [t1|e]; cbn [rbind]; [|reflexivity]. apply IH.
Qed.
Lemma moves_balanced cs : Forall moves cs -> balanced cs.
Proof. induction 1 as [|c cs Hc _ IH]; [constructor|]. destruct c; try destruct Hc; constructor; assumption. Qed.
Lemma bal_app cs cs' : balanced cs -> balanced cs' -> balanced (cs ++ cs').
Proof.
  induction 1 as [|d cs Hc IH|a cs Hc IH|cs cs1 Hc IH Hc1 IH1]; intros Hb; cbn [app]; [assumption|constructor; auto|constructor; auto|].
  rewrite <- app_assoc. cbn [app]. constructor; auto.
Qed.

Section TurtleWords.
  Context {C : Type} {EQ : EqD C} (open_ close_ : C) (b : dict C (binding turtle)).
  Context (Ho : dget b open_ = Some (One (method Push))) (Hc : dget b close_ = Some (One (method Pop)))
    (Hd : forall c x, c <> open_ -> c <> close_ -> dget b c = Some x -> exists cs, Forall moves cs /\ (x = Many (map method cs) \/ exists m, cs = [m] /\ x = One (method m))).

  Lemma matched_commands w : matched open_ close_ w -> (forall c, In c w -> dget b c <> None) -> exists cs, balanced cs /\ all_instructions b w = map method cs.
  Proof.
    induction 1 as [|c w H1 H2 Hw IH|w w' Hw IH Hw' IH']; intros Hb.
    - exists []. split; [constructor|reflexivity].
    - destruct IH as (cs & Hcs & E); [intros c' Hc'; apply Hb; right; assumption|]. assert (Hcb := Hb c (or_introl eq_refl)). destruct (dget b c) as [x|] eqn:Ex; [|congruence].
      destruct (Hd c x H1 H2 Ex) as (ms & Hm & Hx). exists (ms ++ cs). split; [apply bal_app; [apply moves_balanced; assumption|assumption]|]. rewrite map_app. cbn [all_instructions flat_map]. rewrite Ex. unfold all_instructions in E. rewrite E.
      destruct Hx as [-> |(m & -> & ->)]; reflexivity.
    - destruct IH as (cs & Hcs & E); [intros c' Hc'; apply Hb; right; apply in_app_iff; left; assumption|]. destruct IH' as (cs' & Hcs' & E'); [intros c' Hc'; apply Hb; right; apply in_app_iff; right; right; assumption|].
      exists (Push :: cs ++ Pop :: cs'). split; [constructor; assumption|]. unfold all_instructions in *. cbn [flat_map]. rewrite Ho, flat_map_app. cbn [flat_map]. rewrite Hc, E, E'. cbn [map app]. rewrite map_app. reflexivity.
  Qed.
End TurtleWords.

Theorem C75_turtle_matched : forall (C : Type) (EQ : EqD C) (open_ close_ : C) (b : dict C (binding turtle)) w t,
  dget b open_ = Some (One (method Push)) -> dget b close_ = Some (One (method Pop)) ->
  (forall c x, c <> open_ -> c <> close_ -> dget b c = Some x -> exists cs, Forall moves cs /\ (x = Many (map method cs) \/ exists m, cs = [m] /\ x = One (method m))) ->
  matched open_ close_ w -> (forall c, In c w -> dget b c <> None) ->
  (exists t', render b w t = (t', Ok tt) /\ t_stack t' = t_stack t) /\
  (exists t' ls, render b (open_ :: w ++ [close_]) t = (t', Ok tt) /\ pos t' = pos t /\ t_orientation t' = t_orientation t /\ t_stack t' = t_stack t /\ t_trajectory t' = t_trajectory t ++ ls).
Proof.
  intros C EQ open_ close_ b w t Ho Hc Hd Hm Hb. destruct (matched_commands open_ close_ b Ho Hc Hd w Hm Hb) as (cs & Hcs & E). split.
  - destruct (balanced_run cs Hcs t) as (t' & Er & Hs). exists t'. split; [|assumption]. rewrite render_execute by assumption. rewrite E, execute_methods, Er. reflexivity.
  - destruct (C62_push_pop cs t Hcs) as (t' & ls & Er & H1 & H2 & H3 & H4 & _). exists t', ls. split; [|auto].
    rewrite render_execute by (intros c [<-|Hi]; [congruence|]; apply in_app_iff in Hi; destruct Hi as [Hi|[<-|[]]]; [apply Hb; assumption|congruence]).
    assert (E' : all_instructions b (open_ :: w ++ [close_]) = map method (Push :: cs ++ [Pop])) by (unfold all_instructions in *; cbn [flat_map]; rewrite Ho, flat_map_app; cbn [flat_map]; rewrite Hc, E; cbn [map app]; rewrite map_app; reflexivity).
    rewrite E', execute_methods, Er. reflexivity.
Qed.

(** ** Examples: the symbols 1 [F], 2 [+], 3 "[", 4 "]" *)
Open Scope Z_scope.
Definition ex_bindings : dict Z (binding turtle) :=
  [(1, One (method (Forward 1%R))); (2, Many [method (Rotate 45%R); method (Rotate 45%R)]); (3, One (method Push)); (4, One (method Pop))].
Example C75_nonvacuous : matched 3 4 [1; 3; 2; 1; 3; 4; 4; 1] /\ (forall c, In c [1; 3; 2; 1; 3; 4; 4; 1] -> dget ex_bindings c <> None) /\
  (forall c x, c <> 3 -> c <> 4 -> dget ex_bindings c = Some x -> exists cs, Forall moves cs /\ (x = Many (map method cs) \/ exists m, cs = [m] /\ x = One (method m))) /\
  render ex_bindings [1; 4; 1] (new_turtle 0 0 0) = (forward 1 (new_turtle 0 0 0), Err IndexError) /\ render ex_bindings [1; 9; 1] (new_turtle 0 0 0) = (forward 1 (new_turtle 0 0 0), Err KeyError).
Proof.
  split; [|split; [|split; [|split; reflexivity]]].
  - apply matched_other; [lia|lia|]. apply (matched_nest 3 4 [2; 1; 3; 4] [1]); [|repeat (apply matched_other; [lia|lia|]); constructor]. do 2 (apply matched_other; [lia|lia|]). apply (matched_nest 3 4 [] []); constructor.
  - intros c Hc. cbn in Hc. repeat (destruct Hc as [<-|Hc]; [discriminate|]). destruct Hc.
  - intros c x H3 H4 E. cbn [dget ex_bindings] in E. destruct (eqd c 1) as [-> |]; [|destruct (eqd c 2) as [-> |]; [|destruct (eqd c 3); [congruence|destruct (eqd c 4); [congruence|discriminate]]]].
    + injection E as <-. exists [Forward 1%R]. split; [repeat constructor|]. right. eexists. split; reflexivity.
    + injection E as <-. exists [Rotate 45%R; Rotate 45%R]. split; [repeat constructor|]. left. reflexivity.
Qed.

Print Assumptions C75_sequence.
Print Assumptions C75_executes.
Print Assumptions C75_unbound.
Print Assumptions C75_raises.
Print Assumptions C75_turtle_matched.
