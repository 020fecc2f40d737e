(** Property theorems for Langton's loop on the plane and the Langton's loops demo (C125). *)
From Verif Require Import Py PyFacts ListFacts Network Topology Evolve EvolveSpec EvolveStatic PropEvolve TuringProofs2.
From Verif Require Import Ctrbl CtrblSpec CtrblProofs Langton LangtonProofs PropCtrbl LoopSpec LoopFilm LoopRun LoopProofs LoopDemo.
Open Scope string_scope.
Open Scope list_scope.
Open Scope Z_scope.

(** C125. The first 436 steps of Langton's loop: they exist, are determined, and stay in a rectangle *)
Theorem C125_film : exists F, film F 436 /\ forall T t a b, (t <= T <= 436)%nat -> F t a b <> 0 -> let '(r0, c0, h, w) := box T in r0 < a < r0 + h - 1 /\ c0 < b < c0 + w - 1.
Proof.
  exists LF. split; [apply LF_film; lia|]. intros T t a b Ht Hne. unfold box. destruct (Nat.leb_spec T 151); [apply LF_small in Hne; lia|apply LF_big in Hne; lia].
Qed.
Print Assumptions C125_film.

Theorem C125_unique : forall F F' T, film F T -> film F' T -> forall t, (t <= T)%nat -> forall a b, F t a b = F' t a b.
Proof. exact film_unique. Qed.
Print Assumptions C125_unique.

(** the loop reproduces: from step 151 on there are a new loop eleven columns to the right, 151 steps younger, and the old one, turned to the left and 147 steps younger *)
Theorem C125_reproduces : forall F T t a b, film F T -> (151 <= t <= T)%nat -> (T <= 436)%nat -> F t a b = to_the_right (F (t - 151)%nat) a b + turn_left (F (t - 147)%nat) a b.
Proof.
  intros F T t a b HF Ht HT. unfold to_the_right, turn_left. rewrite !(film_unique F LF T HF (LF_film T HT)) by lia. apply LF_recursion. lia.
Qed.
Print Assumptions C125_reproduces.

(** in particular, after 151 steps the first loop is drawn again, and nothing else is in its place *)
Theorem C125_copy : forall F T a b s, film F T -> (151 <= T <= 436)%nat -> drawn a b = Some s -> F 151%nat a (b + 11) = s.
Proof.
  intros F T a b s HF HT Hd. rewrite (C125_reproduces F T 151 _ _ HF) by lia. unfold to_the_right. replace (b + 11 - 11) with b by lia. change (151 - 151)%nat with 0%nat. change (151 - 147)%nat with 4%nat.
  destruct HF as [H0 H1]. rewrite H0. unfold one_loop. rewrite Hd. assert (E : turn_left (F 4%nat) a (b + 11) = 0); [|lia].
  unfold turn_left. rewrite (film_unique F LF T (conj H0 H1) (LF_film T ltac:(lia))) by lia. apply drawn_range in Hd as Hr.
  destruct (Z.eq_dec (LF 4 (b + 11 + 1) (8 - a)) 0) as [E|E]; [exact E|]. apply LF_small in E; lia.
Qed.
Print Assumptions C125_copy.

Section Demo.
  Context {U I BA BN : Type} (W : env Z Z Z BA BN) (u0 : U).
  Hypothesis Hlab : forall i, e_lab W i = Z.of_nat i.

  Lemma list_grid rows cols l G : 0 < rows -> 0 < cols -> Z.of_nat (length l) = rows * cols -> (forall a b, 0 <= a < rows -> 0 <= b < cols -> nth_error l (Z.to_nat (a * cols + b)) = Some (G a b)) ->
    Z.of_nat (length (to_dict W (CList l))) = rows * cols /\ shows_grid rows cols (to_dict W (CList l)) G.
  Proof.
    intros Hr Hc Hl HG. pose proof (shows_list W l Hlab) as Hs. split; [rewrite (shows_len _ _ Hs); assumption|]. destruct Hs as (_ & _ & Hd). intros a b Ha Hb. rewrite <- (HG a b Ha Hb). apply Hd. rewrite Hl. apply (TopologyProofs.cell_bound rows cols a b Ha Hb).
  Qed.
  Lemma lt_obj rows cols obj : langton_init rows cols = Ok obj -> cr_table obj = lt_tab.
  Proof.
    intros E. destruct C43_langton_table as (_ & _ & _ & t' & Et & _ & _ & _ & _ & H). rewrite (H rows cols obj E). assert (Ok t' = Ok lt_tab) as Eq by (rewrite <- Et; exact lt_tab_eq). injection Eq as ->. reflexivity.
  Qed.
  Lemma lt_values k v : dget lt_tab k = Some v -> 0 <= v <= 7.
  Proof. intros E. apply lt_entry in E. destruct E as (k0 & Hin & Ht). destruct C43_langton_table as (_ & _ & _ & t' & _ & H1 & _ & H2 & _). exact (proj1 (H2 k v (H1 k0 k v Hin Ht))). Qed.
  Lemma lt_constructed rows cols : 0 < rows -> 0 < cols -> 9 <= rows * cols -> exists obj, langton_init rows cols = Ok obj.
  Proof. intros Hr Hc Hn. apply (proj1 (C41_construction Z _ rows cols langton_table true) Hr Hc Hn); [apply C43_langton_table|exact lt_five]. Qed.

  Lemma lt_run rows cols obj fuel l T (G : nat -> plane) : 0 < rows -> 0 < cols -> 9 <= rows * cols -> langton_init rows cols = Ok obj -> 1 <= T -> (Z.to_nat T <= fuel)%nat -> Z.of_nat (length (to_dict W (CList l))) = rows * cols ->
    shows_grid rows cols (to_dict W (CList l)) (G 0%nat) -> (forall t, Z.of_nat t + 1 < T -> forall a b, 0 <= a < rows -> 0 <= b < cols -> dget lt_tab (torus_key rows cols (G t) a b) = Some (G (Datatypes.S t) a b)) ->
    exists uf traj hs, evolve W fuel u0 (cr_network obj) (Some (CList l)) (Some T) None (loops_args (I := I) obj) = Ok (uf, traj) /\ Z.of_nat (length hs) = T /\
      Forall2 (fun st S => activities W st = Ok (shown_acts S)) traj hs /\ forall k S, nth_error hs k = Some S -> shows_grid rows cols S (G k).
  Proof.
    intros Hr Hc Hn Eo HT Hf Hlen H0 Hs. apply (ctrbl_run W rows cols langton_table true obj Hr Hc Hn Eo); try assumption; [repeat split|]. intros t Ht a b Ha Hb. rewrite (lt_obj _ _ _ Eo). apply Hs; assumption.
  Qed.
  Lemma lt_fails rows cols obj fuel l T K (G : nat -> plane) : 0 < rows -> 0 < cols -> 9 <= rows * cols -> langton_init rows cols = Ok obj -> (S K < Z.to_nat T <= fuel)%nat -> Z.of_nat (length (to_dict W (CList l))) = rows * cols ->
    shows_grid rows cols (to_dict W (CList l)) (G 0%nat) -> (forall t, (t < K)%nat -> forall a b, 0 <= a < rows -> 0 <= b < cols -> dget lt_tab (torus_key rows cols (G t) a b) = Some (G (Datatypes.S t) a b)) ->
    (exists a b, 0 <= a < rows /\ 0 <= b < cols /\ dget lt_tab (torus_key rows cols (G K) a b) = None) ->
    evolve W fuel u0 (cr_network obj) (Some (CList l)) (Some T) None (loops_args (I := I) obj) = Err missing.
  Proof.
    intros Hr Hc Hn Eo HK Hlen H0 Hs Hbad. apply (ctrbl_fails W rows cols langton_table true obj Hr Hc Hn Eo fuel u0 (CList l) T K _ G); try assumption; [repeat split| |]; [intros t Ht a b Ha Hb|]; rewrite (lt_obj _ _ _ Eo); [apply Hs|]; assumption.
  Qed.

  (** any number of loops so far apart that their rectangles do not overlap, on a torus: each shows the film, and nothing else happens *)
  Theorem C125_loops rows cols loops T F timesteps fuel : film F T -> (T <= 436)%nat -> box_rows T <= rows -> box_cols T <= cols ->
    (forall p, In p loops -> 0 <= fst p /\ fst p + 10 <= rows /\ 1 <= snd p /\ snd p + 14 <= cols) -> ForallOrdPairs (apart rows cols T) loops ->
    1 <= timesteps <= Z.of_nat T + 1 -> (Z.to_nat timesteps <= fuel)%nat ->
    exists traj hs, langtons_loops_demo (I := I) W fuel u0 rows cols (Z.of_nat (length loops)) (map fst loops) (map snd loops) timesteps = Ok traj /\ Z.of_nat (length hs) = timesteps /\
      Forall2 (fun st S => activities W st = Ok (shown_acts S)) traj hs /\
      forall t S, nth_error hs t = Some S -> forall a b, 0 <= a < rows -> 0 <= b < cols -> dget S (a * cols + b) = Some (colony rows cols T loops F t a b).
  Proof.
    intros HF HT Hrows Hcols Hpos Hap Hts Hfuel. assert (Hr : 17 <= rows /\ 28 <= cols) by (unfold box_rows, box_cols, box in *; destruct (T <=? 151)%nat; lia).
    destruct (lt_constructed rows cols) as [obj Eo]; try nia. destruct (C66_init_loops rows cols loops) as (l & El & Hl & Hcell); try lia; [assumption|].
    assert (HG : forall a b, 0 <= a < rows -> 0 <= b < cols -> nth_error l (Z.to_nat (a * cols + b)) = Some (colony rows cols T loops F 0 a b)).
    { intros a b Ha Hb. destruct (Hcell a b Ha Hb) as (s & Es & Hs). rewrite Es. f_equal. eapply colony_start; eassumption. }
    destruct (list_grid rows cols l _ ltac:(lia) ltac:(lia) Hl HG) as [Hlen Hshow].
    destruct (ctrbl_run W rows cols langton_table true obj ltac:(lia) ltac:(lia) ltac:(nia) Eo fuel u0 (CList l : cond Z Z) timesteps (loops_args (I := I) (U := U) obj) (colony rows cols T loops F)) as (uf & traj & hs & E & Hn & Hf & Hsh); try lia; try assumption.
    - repeat split.
    - intros t Ht a b Ha Hb. rewrite (lt_obj _ _ _ Eo). apply colony_next; (assumption || lia).
    - exists traj, hs. unfold langtons_loops_demo. rewrite Eo. cbn [rbind]. rewrite El. cbn [rbind]. rewrite E. split; [reflexivity|]. split; [assumption|]. split; [assumption|]. intros t S Et. apply (Hsh t S Et).
  Qed.

  (** ** the script: a torus of 75 by 75 cells *)
  Definition g75 : list (list Z) := Eval vm_compute in match init_loops_grid 75 75 1 [40] [25] with Ok g => g | Err _ => [] end.
  Lemma g75_init : init_loops 75 75 1 [40] [25] = Ok (concat g75).
  Proof. vm_compute. reflexivity. Qed.
  Lemma g75_dims : dims 75 75 g75.
  Proof. split; [reflexivity|]. apply Forall_forall. assert (E : forallb (fun r => Z.of_nat (length r) =? 75) g75 = true) by (vm_compute; reflexivity). rewrite forallb_forall in E. intros r Hr. apply Z.eqb_eq, (E r Hr). Qed.
  Opaque g75.
  Definition fr75 := frames lt_tree 506 g75.
  Definition check75 : bool := let fs := fr75 in (length fs =? 507)%nat && match gstep lt_tree (last fs []) with None => true | Some _ => false end.
  Lemma check75_true : check75 = true.
  Proof. vm_compute. reflexivity. Qed.
  Opaque fr75.
  Definition G75 (t : nat) : plane := at2 (nth t fr75 []).
  Lemma G75_zero a b : G75 0 a b = at2 g75 a b.
  Proof. unfold G75. Transparent fr75. unfold fr75. Opaque fr75. rewrite frames_zero. reflexivity. Qed.
  Lemma last_nth {X} (l : list X) d : last l d = nth (length l - 1) l d.
  Proof. induction l as [|x [|y l] IH]; [reflexivity|reflexivity|]. change (last (x :: y :: l) d) with (last (y :: l) d). rewrite IH. cbn [length]. replace (S (S (length l)) - 1)%nat with (S (S (length l) - 1)) by lia. reflexivity. Qed.
  Lemma dims75 t : (t <= 506)%nat -> dims 75 75 (nth t fr75 []).
  Proof.
    intros Ht. pose proof check75_true as H. unfold check75 in H. cbv zeta in H. apply andb_prop in H. destruct H as [H1 _]. apply Nat.eqb_eq in H1. Transparent fr75. apply (frames_dims 75 75 lt_tree 506 g75 eq_refl eq_refl g75_dims). change (frames lt_tree 506 g75) with fr75. Opaque fr75. lia.
  Qed.
  Lemma next75 t : (t < 506)%nat -> forall a b, 0 <= a < 75 -> 0 <= b < 75 -> dget lt_tab (torus_key 75 75 (G75 t) a b) = Some (G75 (S t) a b).
  Proof.
    intros Ht a b Ha Hb. pose proof check75_true as H. unfold check75 in H. cbv zeta in H. apply andb_prop in H. destruct H as [H1 _]. apply Nat.eqb_eq in H1.
    assert (Hs : gstep lt_tree (nth t fr75 []) = Some (nth (S t) fr75 [])).
    { Transparent fr75. apply (frames_at lt_tree 506 g75 t). change (frames lt_tree 506 g75) with fr75. Opaque fr75. lia. }
    destruct (gstep_ok 75 75 lt_tree eq_refl eq_refl _ _ (dims75 t ltac:(lia)) Hs) as [_ Hf]. specialize (Hf a b Ha Hb). apply lt_find in Hf. exact Hf.
  Qed.
  Lemma stuck75 : exists a b, 0 <= a < 75 /\ 0 <= b < 75 /\ dget lt_tab (torus_key 75 75 (G75 506) a b) = None.
  Proof.
    pose proof check75_true as H. unfold check75 in H. cbv zeta in H. apply andb_prop in H. destruct H as [H1 H2]. apply Nat.eqb_eq in H1. rewrite last_nth, H1 in H2. change (507 - 1)%nat with 506%nat in H2. destruct (gstep lt_tree (nth 506 fr75 [])) eqn:E; [discriminate|].
    destruct (gstep_none 75 75 lt_tree eq_refl _ (dims75 506 ltac:(lia)) E) as (a & b & Ha & Hb & Hf). exists a, b. split; [assumption|]. split; [assumption|]. apply lt_find_none in Hf; [exact Hf|reflexivity].
  Qed.
  Lemma concat_at rows cols g : 0 < cols -> dims rows cols g -> forall a b, 0 <= a < rows -> 0 <= b < cols -> nth_error (concat g) (Z.to_nat (a * cols + b)) = Some (at2 g a b).
  Proof.
    intros Hc [H1 H2]. subst rows. induction g as [|r g IH]; intros a b Ha Hb; [cbn in Ha; lia|]. pose proof (Forall_inv H2) as Hr. cbv beta in Hr. apply Forall_inv_tail in H2. cbn [concat length] in *. unfold at2 in *. destruct (Z.eq_dec a 0) as [->|Hne].
    - replace (0 * cols + b) with b by lia. rewrite nth_error_app1 by lia. apply (nth_error_nth' r 0 (n := Z.to_nat b)). lia.
    - rewrite nth_error_app2 by nia. assert (E1 : a * cols + b = (a - 1) * cols + b + Z.of_nat (length r)) by (rewrite Hr; ring). assert (E2 : 0 <= (a - 1) * cols) by (apply Z.mul_nonneg_nonneg; lia). replace (Z.to_nat (a * cols + b) - length r)%nat with (Z.to_nat ((a - 1) * cols + b)) by (rewrite E1; lia). rewrite IH by (assumption || lia). replace (Z.to_nat a) with (S (Z.to_nat (a - 1))) by lia. reflexivity.
  Qed.
  Lemma start75 : Z.of_nat (length (to_dict W (CList (concat g75)))) = 75 * 75 /\ shows_grid 75 75 (to_dict W (CList (concat g75))) (G75 0).
  Proof.
    apply list_grid; [lia|lia|vm_compute; reflexivity|]. intros a b Ha Hb. rewrite G75_zero. apply (concat_at 75 75); [lia|apply g75_dims|assumption|assumption].
  Qed.
  Lemma G75_film F t a b : film F 436 -> (t <= 436)%nat -> 0 <= a < 75 -> 0 <= b < 75 -> G75 t a b = F t (-25 + (a - 15) mod 75) (-16 + (b - 9) mod 75).
  Proof.
    intros HF Ht Ha Hb. assert (E : forall t, (t <= 436)%nat -> forall a b, 0 <= a < 75 -> 0 <= b < 75 -> G75 t a b = colony 75 75 436 [(40, 25)] F t a b).
    { clear t a b Ht Ha Hb. induction t as [|t IH]; intros Ht a b Ha Hb.
      - destruct (C66_init_loops 75 75 [(40, 25)]) as (l & El & Hl & Hcell); [lia|lia|intros p [<-|[]]; cbn; lia|]. change (map fst [(40, 25)]) with [40] in El. change (map snd [(40, 25)]) with [25] in El. change (Z.of_nat (length [(40, 25)])) with 1 in El. rewrite g75_init in El. assert (E : concat g75 = l) by congruence. clear El. subst l.
        destruct (Hcell a b Ha Hb) as (s & Es & Hs). rewrite (concat_at 75 75 g75) in Es by (lia || apply g75_dims). injection Es as Es. transitivity s; [rewrite <- Es; apply G75_zero|].
        apply (colony_start 75 75 436 [(40, 25)] F) with (a := a) (b := b); try assumption; try lia; [cbn; lia|cbn; lia|repeat constructor|intros p [<-|[]]; cbn; lia].
      - pose proof (next75 t ltac:(lia) a b Ha Hb) as E1. assert (E2 : dget lt_tab (torus_key 75 75 (colony 75 75 436 [(40, 25)] F t) a b) = Some (colony 75 75 436 [(40, 25)] F (S t) a b)).
        { apply colony_next; try assumption; try lia; [cbn; lia|cbn; lia|repeat constructor]. }
        assert (Ek : torus_key 75 75 (G75 t) a b = torus_key 75 75 (colony 75 75 436 [(40, 25)] F t) a b).
        { unfold torus_key. pose proof (Z.mod_pos_bound (a - 1) 75 ltac:(lia)). pose proof (Z.mod_pos_bound (a + 1) 75 ltac:(lia)). pose proof (Z.mod_pos_bound (b - 1) 75 ltac:(lia)). pose proof (Z.mod_pos_bound (b + 1) 75 ltac:(lia)). rewrite !IH by lia. reflexivity. }
        rewrite Ek, E2 in E1. congruence. }
    rewrite E by assumption. unfold colony, seen. cbn [map zsum fst snd]. change (box 436) with (-25, -16, 38, 60). cbn iota beta. rewrite Z.add_0_r. f_equal; [f_equal; f_equal; lia|f_equal; f_equal; lia].
  Qed.

  (** langtons_loops_demo.py: up to 507 timesteps the script runs, and the first 437 states are those of the loop on the plane; with 508 timesteps or more it raises *)
  Theorem C125_script F timesteps fuel : film F 436 -> (Z.to_nat timesteps <= fuel)%nat ->
    (1 <= timesteps <= 507 ->
       exists traj hs, langtons_loops_demo (I := I) W fuel u0 75 75 1 [40] [25] timesteps = Ok traj /\ Z.of_nat (length hs) = timesteps /\
         Forall2 (fun st S => activities W st = Ok (shown_acts S)) traj hs /\
         (forall t S, nth_error hs t = Some S -> forall a b, 0 <= a < 75 -> 0 <= b < 75 -> exists s, dget S (a * 75 + b) = Some s /\ 0 <= s <= 7) /\
         forall t S, (t <= 436)%nat -> nth_error hs t = Some S -> forall a b, 0 <= a < 75 -> 0 <= b < 75 -> dget S (a * 75 + b) = Some (F t (-25 + (a - 15) mod 75) (-16 + (b - 9) mod 75))) /\
    (508 <= timesteps -> langtons_loops_demo (I := I) W fuel u0 75 75 1 [40] [25] timesteps = Err (Raise "neighbourhood state not in rule table")).
  Proof.
    intros HF Hfuel. destruct (lt_constructed 75 75) as [obj Eo]; try lia. pose proof g75_init as Ei. destruct start75 as [Hlen Hshow]. set (l := concat g75) in *. clearbody l. split; intros Ht.
    - destruct (lt_run 75 75 obj fuel l timesteps G75 ltac:(lia) ltac:(lia) ltac:(lia) Eo ltac:(lia) Hfuel Hlen Hshow) as (uf & traj & hs & E & Hn & Hf & Hsh).
      + intros t Htt a b Ha Hb. apply next75; (assumption || lia).
      + exists traj, hs. unfold langtons_loops_demo. rewrite Eo. cbn [rbind]. rewrite Ei. cbn [rbind]. rewrite E. split; [reflexivity|]. split; [assumption|]. split; [assumption|]. split.
        * intros t S Et a b Ha Hb. assert (Hts : (t < length hs)%nat) by (apply nth_error_Some; congruence). eexists. split; [apply (Hsh t S Et); assumption|].
          destruct t as [|t].
          -- assert (Hz : forallb (fun r => forallb (fun s => (0 <=? s) && (s <=? 7)) r) g75 = true) by (vm_compute; reflexivity). rewrite G75_zero. unfold at2. rewrite forallb_forall in Hz. destruct g75_dims as [D1 D2]. specialize (Hz (nth (Z.to_nat a) g75 []) (nth_In g75 [] (n := Z.to_nat a) ltac:(lia))). rewrite forallb_forall in Hz.
             rewrite Forall_forall in D2. pose proof (D2 _ (nth_In g75 [] (n := Z.to_nat a) ltac:(lia))) as Hrow. specialize (Hz _ (nth_In (nth (Z.to_nat a) g75 []) 0 (n := Z.to_nat b) ltac:(lia))). lia.
          -- apply (lt_values _ _ (next75 t ltac:(lia) a b Ha Hb)).
        * intros t S Htt Et a b Ha Hb. rewrite (Hsh t S Et a b Ha Hb). f_equal. apply G75_film; assumption.
    - unfold langtons_loops_demo. rewrite Eo. cbn [rbind]. rewrite Ei. cbn [rbind].
      rewrite (lt_fails 75 75 obj fuel l timesteps 506 G75 ltac:(lia) ltac:(lia) ltac:(lia) Eo ltac:(lia) Hlen Hshow next75 stuck75). reflexivity.
  Qed.
End Demo.
Print Assumptions C125_loops. Print Assumptions C125_script.

Example C125_film_nonvacuous : exists F, film F 436 /\ F 0%nat 1 1 = 7 /\ F 151%nat 1 12 = 7.
Proof.
  destruct C125_film as (F & HF & _). exists F. split; [assumption|]. split; [destruct HF as [-> _]; reflexivity|]. exact (C125_copy F 436 1 1 7 HF ltac:(lia) eq_refl).
Qed.
(** two loops above each other on a torus of 34 by 28 cells *)
Example C125_loops_nonvacuous : box_rows 151 <= 34 /\ box_cols 151 <= 28 /\ (forall p, In p [(0, 1); (17, 1)] -> 0 <= fst p /\ fst p + 10 <= 34 /\ 1 <= snd p /\ snd p + 14 <= 28) /\ ForallOrdPairs (apart 34 28 151) [(0, 1); (17, 1)] /\
  exists F, film F 151.
Proof.
  split; [cbn; lia|]. split; [cbn; lia|]. split; [intros p [<-|[<-|[]]]; cbn; lia|]. split; [constructor; [constructor; [left; vm_compute; split; discriminate|constructor]|constructor; [constructor|constructor]]|]. exists LF. apply LF_film. lia.
Qed.
Example C125_script_nonvacuous : (Z.to_nat 500 <= 600)%nat /\ 1 <= 500 <= 507 /\ forall i, e_lab W0 i = Z.of_nat i.
Proof. split; [lia|]. split; [lia|]. reflexivity. Qed.
