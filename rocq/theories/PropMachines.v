(** Property theorems for the one-node demos: pushdown automaton (C85), Collatz sequence (C86), turnstile (C87). *)
From Coq Require Import Ascii.
From Verif Require Import Py PyFacts ListFacts Network Topology Evolve EvolveSpec EvolveProofs EvolveStatic Machines MachinesProofs PropEvolve.
Open Scope string_scope.
Open Scope list_scope.
Open Scope Z_scope.

(** the recorded states are those of the single node 0, with the activities [l] *)
Definition node_history {U V BA BN} (W : env Z V Z BA BN) (r : res (U * list (state Z V Z BA BN))) (uf : U) (l : list Z) : Prop :=
  exists traj, r = Ok (uf, traj) /\ Forall2 (fun st a => activities W st = Ok (Some [(0, a)])) traj l.
(** labels are indices, as in all the demos *)
Definition int_labels {V BA BN} (W : env Z V Z BA BN) : Prop := e_lab W 0 = 0 /\ e_idx W 0 = Some 0.

(** the characters of a^n b^n followed by the end mark *)
Definition anbn (n : nat) : list ascii := repeat "a"%char n ++ repeat "b"%char n ++ [ascii_of_nat 10].
(** Collatz's function *)
Definition collatz (n : Z) : Z := if Z.even n then n / 2 else 3 * n + 1.
Definition orbit (n : Z) (k : nat) : Z := Nat.iter k collatz n.

Lemma from_matrix : from_adjacency_matrix nzb [[1]] = (one_node, Ok tt).
Proof. reflexivity. Qed.

Section Pda.
  Context {I BA BN : Type}.
  Notation env := (env Z Z Z BA BN).
  Notation args := (@args Z Z Z (list string) I).

  Definition pda_run (W : env) fuel (g : args) (s : string) := evolve W fuel ["Z"] one_node (Some (CList [0])) None (Some (InputList (events s))) g.

  (** C85: the run ends without an exception exactly on the prefixes of the words a^n b^n '\n'; otherwise it raises "input rejected" *)
  Theorem C85_runs_on_prefixes : forall (W : env) fuel (g : args) s, int_labels W -> static g pda_rule -> (String.length s < fuel)%nat ->
    ((exists uf l, node_history W (pda_run W fuel g s) uf l) <-> exists n w, (1 <= n)%nat /\ list_ascii_of_string s ++ w = anbn n) /\
    ((forall n w, (1 <= n)%nat -> list_ascii_of_string s ++ w <> anbn n) -> pda_run W fuel g s = Err (Raise "input rejected")).
  Proof.
    intros W fuel g s [Hlab Hidx] Hst Hfu. assert (Hl : length (list_ascii_of_string s) = String.length s) by (clear; induction s; cbn; congruence).
    destruct (pda_feed (I := I) (list_ascii_of_string s) 0 0 ltac:(left; auto)) as [(uf & l & qf & kf & Ef & Eu & El & Hr & Hc)|[Ef Hc]].
    - assert (Hh : node_history W (pda_run W fuel g s) uf l).
      { apply (one_ok W g pda_rule pda_F Hst pda_rule_F fuel ["Z"] 0 (Some (InputList (events s))) None (list_input (events s)) uf l Hlab eq_refl).
        - apply (feed_ok W pda_F Hidx s _ 0 ["Z"] 0 uf l eq_refl Ef).
        - rewrite (feed_length _ _ _ _ _ _ Ef). lia. }
      destruct (complete_some _ _ Hr) as [w Hw]. apply Hc in Hw. destruct Hw as (n & Hn & En). split.
      + split; [intros _; exists n, w; auto|intros _; eauto].
      + intros Hno. exfalso. exact (Hno n w Hn En).
    - destruct (feed_err W pda_F Hidx s _ 0 ["Z"] 0 _ eq_refl Ef) as (k & Hk & Hf).
      assert (E : pda_run W fuel g s = Err (Raise "input rejected")) by (apply (one_err W g pda_rule pda_F Hst pda_rule_F fuel ["Z"] 0 (Some (InputList (events s))) None (list_input (events s)) _ k Hlab eq_refl Hf); cbn [skipn] in Hk; lia).
      split; [|intros _; assumption]. split.
      + intros (uf & l & traj & E' & _). rewrite E in E'. discriminate.
      + intros (n & w & Hn & En). exfalso. apply (Hc w). exists n. auto.
  Qed.

  (** the automaton ends in its accepting state q3 exactly on those words *)
  Theorem C85_accepts : forall (W : env) fuel (g : args) s, int_labels W -> static g pda_rule -> (String.length s < fuel)%nat ->
    ((exists uf l, node_history W (pda_run W fuel g s) uf l /\ last l 0 = 3) <-> exists n, (1 <= n)%nat /\ list_ascii_of_string s = anbn n) /\
    (forall uf l, node_history W (pda_run W fuel g s) uf l -> last l 0 = 3 -> uf = ["Z"]).
  Proof.
    intros W fuel g s [Hlab Hidx] Hst Hfu. assert (Hl : length (list_ascii_of_string s) = String.length s) by (clear; induction s; cbn; congruence).
    destruct (pda_feed (I := I) (list_ascii_of_string s) 0 0 ltac:(left; auto)) as [(uf & l & qf & kf & Ef & Eu & El & Hr & Hc)|[Ef Hc]].
    - assert (Hh : node_history W (pda_run W fuel g s) uf l).
      { apply (one_ok W g pda_rule pda_F Hst pda_rule_F fuel ["Z"] 0 (Some (InputList (events s))) None (list_input (events s)) uf l Hlab eq_refl).
        - apply (feed_ok W pda_F Hidx s _ 0 ["Z"] 0 uf l eq_refl Ef).
        - rewrite (feed_length _ _ _ _ _ _ Ef). lia. }
      assert (Huniq : forall uf' l', node_history W (pda_run W fuel g s) uf' l' -> uf' = uf /\ l' = l).
      { intros uf' l' (tr' & E' & H'). destruct Hh as (tr & E & H). rewrite E in E'. injection E' as <- <-. split; [reflexivity|].
        clear - H H'. revert l' H'. induction H as [|st a tr l Ha H IH]; intros l' H'; inversion H' as [|? a' ? ? Ha' H'']; subst; [reflexivity|]. rewrite Ha in Ha'. injection Ha' as <-. f_equal. apply IH. assumption. }
      split.
      + split.
        * intros (uf' & l' & Hh' & E3). destruct (Huniq _ _ Hh') as [-> ->]. rewrite El in E3. pose proof (proj2 (complete_nil _ _ Hr) E3) as Hn. apply Hc in Hn. rewrite app_nil_r in Hn. exact Hn.
        * intros Hn. exists uf, l. split; [assumption|]. rewrite El. apply (complete_nil _ _ Hr), Hc. rewrite app_nil_r. exact Hn.
      + intros uf' l' Hh' E3. destruct (Huniq _ _ Hh') as [-> ->]. rewrite El in E3. subst qf. rewrite Eu. rewrite E3 in Hr. destruct Hr as [[? _]|[[? _]|[?|[_ ->]]]]; try discriminate. reflexivity.
    - destruct (feed_err W pda_F Hidx s _ 0 ["Z"] 0 _ eq_refl Ef) as (k & Hk & Hf).
      assert (E : pda_run W fuel g s = Err (Raise "input rejected")) by (apply (one_err W g pda_rule pda_F Hst pda_rule_F fuel ["Z"] 0 (Some (InputList (events s))) None (list_input (events s)) _ k Hlab eq_refl Hf); cbn [skipn] in Hk; lia).
      split; [split|].
      + intros (uf & l & (traj & E' & _) & _). rewrite E in E'. discriminate.
      + intros (n & Hn & En). exfalso. apply (Hc []). rewrite app_nil_r. exists n. auto.
      + intros uf l (traj & E' & _). rewrite E in E'. discriminate.
  Qed.
End Pda.
Print Assumptions C85_runs_on_prefixes.
Print Assumptions C85_accepts.

Definition g_pda : @args Z Z Z (list string) Z := mkArgs (Some pda_rule) None None [] ACTIVITIES_FIRST true false true true false None.
(** no exception does not mean membership: "aab" is not a^n b^n, yet the demo would report it as accepted *)
Theorem C85_unfinished_refuted : exists (W : env Z Z Z unit unit) fuel (g : @args Z Z Z (list string) Z) s uf l,
  int_labels W /\ static g pda_rule /\ (String.length s < fuel)%nat /\ node_history W (pda_run W fuel g s) uf l /\
  forall n, list_ascii_of_string s <> anbn n /\ list_ascii_of_string s ++ [ascii_of_nat 10] <> anbn n.
Proof.
  exists W0, 9%nat, g_pda, "aab", ["Z"; "a"], [0; 1; 1; 2]. split; [split; reflexivity|]. split; [repeat split|]. split; [cbn; lia|]. split.
  - eexists. split; [vm_compute; reflexivity|]. repeat (constructor; [vm_compute; reflexivity|]). constructor.
  - intros n. assert (Hl : length (anbn n) = (2 * n + 1)%nat) by (unfold anbn; rewrite !app_length, !repeat_length; cbn; lia).
    split; intros E; pose proof (f_equal (@length ascii) E) as El; rewrite Hl in El; cbn in El; [|lia].
    assert (n = 1)%nat by lia. subst n. discriminate E.
Qed.
Print Assumptions C85_unfinished_refuted.
Example C85_nonvacuous : int_labels W0 /\ static g_pda pda_rule /\ list_ascii_of_string ("aaabbb" ++ newline)%string = anbn 3 /\
  node_history W0 (pda_run W0 9 g_pda ("aaabbb" ++ newline)%string) ["Z"] [0; 1; 1; 1; 2; 2; 2; 3] /\ pda_run W0 9 g_pda "abb" = Err (Raise "input rejected").
Proof.
  split; [split; reflexivity|]. split; [repeat split|]. split; [reflexivity|]. split; [|vm_compute; reflexivity].
  eexists. split; [vm_compute; reflexivity|]. repeat (constructor; [vm_compute; reflexivity|]). constructor.
Qed.

Section Collatz.
  Context {U I BA BN : Type}.
  Notation env := (env Z Z Z BA BN).
  Notation args := (@args Z Z Z U I).
  Let F (u : U) (a : Z) (_ : option (nodein I)) : res (U * Z) := Ok (u, collatz a).
  Lemma collatz_F u (x : node_ctx Z Z Z I) : stateless collatz_rule u x = (' (u', a) <- F u (x_cur x) (x_input x) ;; Ok (u', mkOut a [] [])).
  Proof. unfold F, stateless, collatz_rule, collatz. cbn [rbind]. rewrite Zmod_even. destruct (Z.even (x_cur x)); reflexivity. Qed.

  Definition collatz_run (W : env) fuel (u0 : U) (g : args) (one : I) (n : Z) := evolve W fuel u0 one_node (Some (CList [n])) None (Some (InputFun (collatz_input one))) g.
  Definition up_to (n : Z) (k : nat) : list Z := map (orbit n) (seq 0 (S k)).

  Lemma orbit_S n k : orbit (collatz n) k = orbit n (S k).
  Proof. unfold orbit. induction k as [|k IH]; [reflexivity|]. cbn [Nat.iter nat_rect] in *. f_equal. exact IH. Qed.
  Lemma up_to_S n k : up_to n (S k) = n :: up_to (collatz n) k.
  Proof. unfold up_to. change (seq 0 (S (S k))) with (0%nat :: seq 1 (S k)). rewrite <- (seq_shift (S k) 0). cbn [map]. f_equal. rewrite map_map. apply map_ext. intros j. symmetry. apply orbit_S. Qed.

  (** C86: the run stops at the first 1 of the Collatz sequence, recording the sequence up to there *)
  Theorem C86_stops_at_one : forall (W : env) fuel (u0 : U) (g : args) one n k, e_lab W 0 = 0 -> static g (stateless collatz_rule) ->
    orbit n k = 1 -> (forall j, (j < k)%nat -> orbit n j <> 1) -> (k < fuel)%nat ->
    node_history W (collatz_run W fuel u0 g one n) u0 (map (orbit n) (seq 0 (S k))).
  Proof.
    intros W fuel u0 g one n k Hlab Hst Hk Hbefore Hfu.
    apply (one_ok W g (stateless collatz_rule) F Hst collatz_F fuel u0 n (Some (InputFun (collatz_input one))) None (collatz_input one) u0 _ Hlab eq_refl); [|rewrite map_length, seq_length; lia].
    fold (up_to n k). clear fuel Hfu. generalize 1 at 1 as t. revert n Hk Hbefore. induction k as [|k IH]; intros n Hk Hb t.
    - apply rt_stop. unfold collatz_input. cbn. change (orbit n 0) with n in Hk. rewrite Hk. reflexivity.
    - rewrite up_to_S. eapply rt_go with (ni := Some (NVal one)); [| |reflexivity|].
      + unfold collatz_input. cbn. destruct (Z.eqb_spec n 1) as [->|_]; [exfalso; apply (Hb 0%nat); [lia|reflexivity]|reflexivity].
      + reflexivity.
      + apply IH; [rewrite orbit_S; assumption|]. intros j Hj. rewrite orbit_S. apply Hb. lia.
  Qed.

  Theorem C86_never_stops : forall (W : env) fuel (u0 : U) (g : args) one n, e_lab W 0 = 0 -> static g (stateless collatz_rule) ->
    (forall k, orbit n k <> 1) -> collatz_run W fuel u0 g one n = Err OutOfFuel.
  Proof.
    intros W fuel u0 g one n Hlab Hst Hn.
    apply (one_diverges W g (stateless collatz_rule) F Hst collatz_F fuel u0 n (Some (InputFun (collatz_input one))) None (collatz_input one) (fun _ _ a => forall k, orbit a k <> 1) Hlab eq_refl Hn).
    intros t u a Ha. exists u, (InVal one), (Some (NVal one)), u, (collatz a). split; [|split; [reflexivity|split; [reflexivity|]]].
    - unfold collatz_input. cbn. destruct (Z.eqb_spec a 1) as [->|_]; [exfalso; apply (Ha 0%nat); reflexivity|reflexivity].
    - intros k. rewrite orbit_S. apply Ha.
  Qed.

  (** so the demo ends for [n] exactly if the conjecture holds for [n] *)
  Theorem C86_ends_iff : forall (W : env) (u0 : U) (g : args) one n, e_lab W 0 = 0 -> static g (stateless collatz_rule) ->
    ((exists fuel uf traj, collatz_run W fuel u0 g one n = Ok (uf, traj)) <-> exists k, orbit n k = 1).
  Proof.
    intros W u0 g one n Hlab Hst. split.
    - intros (fuel & uf & traj & E).
      assert (Hd : (exists j, (j < fuel)%nat /\ orbit n j = 1) \/ forall j, (j < fuel)%nat -> orbit n j <> 1).
      { clear. induction fuel as [|f IH]; [right; intros; lia|]. destruct IH as [(j & Hj & E)|IH]; [left; exists j; split; [lia|assumption]|].
        destruct (Z.eq_dec (orbit n f) 1) as [E|E]; [left; exists f; split; [lia|assumption]|]. right. intros j Hj. destruct (Nat.eq_dec j f) as [->|]; [assumption|apply IH; lia]. }
      destruct Hd as [(j & _ & Ej)|Hd]; [eauto|]. exfalso.
      assert (E0 : collatz_run W fuel u0 g one n = Err OutOfFuel); [|rewrite E0 in E; discriminate].
      unfold collatz_run. destruct (one_evolve W g (stateless collatz_rule) Hst fuel u0 n (Some (InputFun (collatz_input one))) None (collatz_input one) Hlab eq_refl) as (sn & mk & ->).
      match goal with |- (c <- ?l ;; _) = _ => enough (E1 : l = Err OutOfFuel) by (rewrite E1; reflexivity) end.
      clear E uf traj. generalize (@nil (mk_K mk * Z)) as tab. intros tab.
      enough (Hg : forall f n t (hist : list (dict Z Z)) trj u, (forall j, (j < f)%nat -> orbit n j <> 1) -> Z.of_nat (length hist) + 1 = t ->
        Forall2 (fun s S => st_act s = match S with [] => None | _ => Some (Raw S) end) trj (hist ++ [[(0, n)]]) ->
        loop W g mk (collatz_input one) f t (mkCfg u [(0, n)] one_node tab (Some (get_neighbourhood_map one_node)) trj) = Err OutOfFuel).
      { apply (Hg fuel n 1 [] _ u0 Hd eq_refl). constructor; [reflexivity|constructor]. }
      clear - F Hst. induction f as [|f IH]; intros n t hist trj u Hb Hh Hf; [reflexivity|]. cbn [loop c_u c_act c_net]. unfold collatz_input at 1. cbn [dget of_opt rbind].
      change (if eqd 0 0 then Some n else None) with (Some n). cbn [of_opt rbind].
      destruct (Z.eqb_spec n 1) as [->|_]; [exfalso; apply (Hb 0%nat); [lia|reflexivity]|]. unfold with_u. cbn [c_act c_net c_tab c_map c_traj].
      destruct (one_step W g (stateless collatz_rule) F Hst collatz_F mk t (InVal one) u n tab hist trj (Some (NVal one)) u (collatz n) Hf Hh eq_refl eq_refl) as (st & Es & Hs).
      rewrite Es. cbn [rbind]. apply (IH (collatz n) (t + 1) (hist ++ [[(0, n)]]) (trj ++ [st]) u).
      + intros j Hj. rewrite orbit_S. apply Hb. lia.
      + rewrite app_length. cbn [length]. lia.
      + apply Forall2_app; [assumption|]. constructor; [assumption|constructor].
    - intros (k & Ek). assert (Hmin : exists m, orbit n m = 1 /\ forall j, (j < m)%nat -> orbit n j <> 1).
      { clear - Ek. assert (Hs : forall k, (exists m, (m <= k)%nat /\ orbit n m = 1 /\ forall j, (j < m)%nat -> orbit n j <> 1) \/ forall j, (j <= k)%nat -> orbit n j <> 1).
        { induction k0 as [|k0 IH].
          - destruct (Z.eq_dec (orbit n 0) 1) as [E|E]; [left; exists 0%nat; repeat split; [lia|assumption|intros; lia]|right; intros j Hj; replace j with 0%nat by lia; assumption].
          - destruct IH as [(m & Hm & E & Hb)|IH]; [left; exists m; repeat split; [lia|assumption|assumption]|].
            destruct (Z.eq_dec (orbit n (S k0)) 1) as [E|E]; [left; exists (S k0); repeat split; [lia|assumption|intros j Hj; apply IH; lia]|].
            right. intros j Hj. destruct (Nat.eq_dec j (S k0)) as [->|]; [assumption|apply IH; lia]. }
        destruct (Hs k) as [(m & _ & E & Hb)|Hn]; [eauto|]. exfalso. exact (Hn k (le_n _) Ek). }
      destruct Hmin as (m & Em & Hb). destruct (C86_stops_at_one W (S m) u0 g one n m Hlab Hst Em Hb ltac:(lia)) as (traj & E & _). eauto.
  Qed.

  (** it does for the powers of two, and never for n <= 0 *)
  Theorem C86_powers_of_two : forall (W : env) fuel (u0 : U) (g : args) one k, e_lab W 0 = 0 -> static g (stateless collatz_rule) -> (k < fuel)%nat ->
    node_history W (collatz_run W fuel u0 g one (2 ^ Z.of_nat k)) u0 (map (fun j => 2 ^ Z.of_nat (k - j)) (seq 0 (S k))).
  Proof.
    intros W fuel u0 g one k Hlab Hst Hfu.
    assert (Ho : forall j, (j <= k)%nat -> orbit (2 ^ Z.of_nat k) j = 2 ^ Z.of_nat (k - j)).
    { induction j as [|j IH]; intros Hj; [rewrite Nat.sub_0_r; reflexivity|]. change (orbit ?n (S j)) with (collatz (orbit n j)). rewrite IH by lia. unfold collatz.
      replace (k - j)%nat with (S (k - S j)) by lia. rewrite Nat2Z.inj_succ, Z.pow_succ_r by lia. rewrite Z.even_mul. cbn [Z.even orb]. rewrite Z.mul_comm. apply Z.div_mul. lia. }
    assert (E : map (fun j => 2 ^ Z.of_nat (k - j)) (seq 0 (S k)) = map (orbit (2 ^ Z.of_nat k)) (seq 0 (S k))) by (apply map_ext_in; intros j Hj; apply in_seq in Hj; symmetry; apply Ho; lia).
    rewrite E. apply C86_stops_at_one; [assumption|assumption|rewrite Ho, Nat.sub_diag by lia; reflexivity| |assumption].
    intros j Hj. rewrite Ho by lia. replace (k - j)%nat with (S (k - S j)) by lia. rewrite Nat2Z.inj_succ, Z.pow_succ_r by lia. lia.
  Qed.
  Theorem C86_nonpositive : forall (W : env) fuel (u0 : U) (g : args) one n, e_lab W 0 = 0 -> static g (stateless collatz_rule) -> n <= 0 ->
    collatz_run W fuel u0 g one n = Err OutOfFuel.
  Proof.
    intros W fuel u0 g one n Hlab Hst Hn. apply C86_never_stops; [assumption|assumption|].
    assert (Ho : forall k, orbit n k <= 0); [|intros k; specialize (Ho k); lia].
    induction k as [|k IH]; [exact Hn|]. change (orbit n (S k)) with (collatz (orbit n k)). unfold collatz. destruct (Z.even (orbit n k)) eqn:E.
    - apply Z.div_le_upper_bound; lia.
    - assert (orbit n k <> 0) by (intros E0; rewrite E0 in E; discriminate). lia.
  Qed.
End Collatz.
Print Assumptions C86_stops_at_one.
Print Assumptions C86_never_stops.
Print Assumptions C86_ends_iff.
Print Assumptions C86_powers_of_two.
Print Assumptions C86_nonpositive.

Definition g_collatz : args0 := base (Some (stateless collatz_rule)) None None [] ACTIVITIES_FIRST false.
Example C86_nonvacuous : e_lab W0 0 = 0 /\ static g_collatz (stateless collatz_rule) /\ orbit 7 16 = 1 /\ (forall j, (j < 16)%nat -> orbit 7 j <> 1) /\
  node_history W0 (collatz_run W0 20 0 g_collatz 1 7) 0 [7; 22; 11; 34; 17; 52; 26; 13; 40; 20; 10; 5; 16; 8; 4; 2; 1] /\ (forall k, orbit (-1) k <> 1).
Proof.
  split; [reflexivity|]. split; [repeat split|]. split; [reflexivity|]. split; [intros j Hj; do 16 (destruct j as [|j]; [vm_compute; discriminate|]); lia|].
  split; [eexists; split; [vm_compute; reflexivity|]; repeat (constructor; [vm_compute; reflexivity|]); constructor|].
  intros k. assert (E : orbit (-1) k = -1 \/ orbit (-1) k = -2); [|lia]. induction k as [|k IH]; [left; reflexivity|].
  change (orbit (-1) (S k)) with (collatz (orbit (-1) k)). destruct IH as [-> | ->]; [right|left]; reflexivity.
Qed.

Section Fsm.
  Context {U I BA BN : Type}.
  Notation env := (env Z Z Z BA BN).
  Notation args := (@args Z Z Z U I).
  (** C87: the turnstile forgets everything but the last event *)
  Theorem C87_turnstile : forall (W : env) fuel (u0 : U) (g : args) (a : Z) s, int_labels W -> static g (stateless fsm_rule) -> (String.length s < fuel)%nat ->
    exists l, node_history W (evolve W fuel u0 one_node (Some (CList [a])) None (Some (InputList (events s))) g) u0 l /\
      length l = S (String.length s) /\ nth_error l 0 = Some a /\
      forall j c, nth_error (list_ascii_of_string s) j = Some c -> nth_error l (S j) = Some (if Ascii.eqb c "p" then 0 else 1).
  Proof.
    intros W fuel u0 g a s [Hlab Hidx] Hst Hfu. assert (Hl : length (list_ascii_of_string s) = String.length s) by (clear; induction s; cbn; congruence).
    set (F := fun (u : U) (_ : Z) (i : option (nodein I)) => Ok (u, if match i with Some (NStr t) => String.eqb t "p" | _ => false end then 0 else 1) : res (U * Z)).
    assert (HF : forall u (x : node_ctx Z Z Z I), stateless fsm_rule u x = (' (u', a) <- F u (x_cur x) (x_input x) ;; Ok (u', mkOut a [] []))) by reflexivity.
    assert (Hfeed : forall cs a, feed F cs u0 a = Ok (u0, a :: map (fun c => if Ascii.eqb c "p" then 0 else 1) cs)).
    { induction cs as [|c cs IH]; intros b; [reflexivity|]. cbn [feed]. unfold F at 1. cbn [rbind]. rewrite IH. cbn [rbind map]. rewrite char_eqb. reflexivity. }
    exists (a :: map (fun c => if Ascii.eqb c "p" then 0 else 1) (list_ascii_of_string s)). split; [|split; [|split]].
    - apply (one_ok W g (stateless fsm_rule) F Hst HF fuel u0 a (Some (InputList (events s))) None (list_input (events s)) u0 _ Hlab eq_refl).
      + apply (feed_ok W F Hidx s _ 0 u0 a u0 _ eq_refl (Hfeed _ _)).
      + cbn [length]. rewrite map_length. lia.
    - cbn [length]. rewrite map_length. lia.
    - reflexivity.
    - intros j c Ej. cbn [nth_error]. rewrite nth_error_map, Ej. reflexivity.
  Qed.
End Fsm.
Print Assumptions C87_turnstile.
Definition g_fsm : args0 := base (Some (stateless fsm_rule)) None None [] ACTIVITIES_FIRST false.
Example C87_nonvacuous : int_labels W0 /\ static g_fsm (stateless fsm_rule) /\
  node_history W0 (evolve W0 6 0 one_node (Some (CList [0])) None (Some (InputList (events "cpcpp"))) g_fsm) 0 [0; 1; 0; 1; 0; 0].
Proof.
  split; [split; reflexivity|]. split; [repeat split|]. eexists. split; [vm_compute; reflexivity|]. repeat (constructor; [vm_compute; reflexivity|]). constructor.
Qed.
