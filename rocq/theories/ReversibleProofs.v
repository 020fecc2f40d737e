(** * Reversibility of ReversibleRule over evolve *)
From Verif Require Import Py PyFacts ListFacts Network Evolve EvolveSpec EvolveProofs EvolveProofs2 EvolveProofs3 EvolveStatic Async.
Open Scope string_scope.
Open Scope list_scope.
Open Scope Z_scope.

Section Forward.
  Context {L V A U I BA BN : Type} `{EqD L} `{EqD A}.
  Context (W : env L V A BA BN).
  Notation network := (network L V).
  Notation acts := (dict L A).
  Notation ctx := (node_ctx L V A I).
  Notation args := (@args L V A U I).

  Lemma past_at_unique (g : args) traj t p p' : past_at W g traj t p -> past_at W g traj t p' -> p = p'.
  Proof.
    unfold past_at. destruct (g_past g) as [|c cs] eqn:Eg.
    - destruct p, p'; try contradiction; reflexivity.
    - rewrite <- Eg. destruct p as [l|], p' as [l'|]; try contradiction. intros [Hl Hk] [Hl' Hk']. f_equal. apply nth_error_ext. intros i.
      destruct (le_lt_dec (length (g_past g)) i) as [Hle|Hlt].
      + rewrite (proj2 (nth_error_None _ _)) by lia. rewrite (proj2 (nth_error_None _ _)) by lia. reflexivity.
      + destruct (Hk (length (g_past g) - i)%nat ltac:(lia)) as (e & E1 & E2). destruct (Hk' (length (g_past g) - i)%nat ltac:(lia)) as (e' & E1' & E2').
        replace (length (g_past g) - (length (g_past g) - i))%nat with i in E1, E1' by lia. rewrite E1, E1'. cbn zeta in *.
        destruct (0 <=? _).
        * destruct E2 as (s & Es & Ea), E2' as (s' & Es' & Ea'). congruence.
        * destruct E2 as (s & Es & Ea), E2' as (s' & Es' & Ea'). congruence.
  Qed.

  (** the states of a successful run of a stateless rule on a fixed network *)
  Lemma stateless_forward fuel (u0 : U) n c T (g : args) h uf traj :
    static g (stateless h) -> NoDup (nodes n) -> 1 <= T ->
    evolve W fuel u0 n (Some c) (Some T) None g = Ok (uf, traj) ->
    exists hs, Z.of_nat (length hs) = T /\ Forall2 (fun s S => activities W s = Ok (shown_acts S)) traj hs /\
      nth_error hs 0 = Some (to_dict W c) /\ synchronous W h (g_past g) n hs.
  Proof.
    intros (Hr & Ht & Hp & Hm & Hcomp & Hpa) Hnd HT E.
    assert (HlT : Z.of_nat (length traj) = T) by apply (evolve_length W fuel u0 n (Some c) (Some T) None g (timestep_input T) T uf traj eq_refl (timestep_ends T HT) HT E).
    assert (Hok : topo_ok g) by (intros f u0' c0 u' n' Ef; congruence).
    destruct (evolve_meets_spec W fuel u0 n (Some c) (Some T) None g uf traj Hm Hnd Hok (or_introl Ht) E) as (infn & hs & Hinf & Hrun).
    cbn in Hinf. injection Hinf as <-.
    assert (Hraw : Forall2 (fun s S => st_act s = match S with [] => None | _ => Some (Raw S) end) traj (map h_act hs)).
    { apply Forall2_nth_intro; [rewrite map_length; symmetry; apply (rs_length _ _ _ _ _ _ _ _ _ Hrun)|]. intros k s S Es ES.
      rewrite nth_error_map in ES. destruct (nth_error hs k) as [h0|] eqn:Eh; [|discriminate]. injection ES as <-. destruct k as [|k].
      - rewrite (rs_first _ _ _ _ _ _ _ _ _ Hrun) in Eh. injection Eh as <-. destruct (rs_first_state _ _ _ _ _ _ _ _ _ Hrun) as (s' & Es' & E1 & _).
        assert (s' = s) by congruence. subst s'. rewrite Hcomp in E1. unfold set_activities in E1. cbn [h_act] in *. destruct (to_dict W c); injection E1 as <-; reflexivity.
      - destruct (nth_error hs k) as [h1|] eqn:E0; [|apply nth_error_None in E0; assert (nth_error hs (S k) = None) by (apply nth_error_None; lia); congruence].
        destruct (rs_step _ _ _ _ _ _ _ _ _ Hrun k h1 h0 E0 Eh) as (u & i & past & s' & _ & _ & _ & Es' & Hsa & _).
        assert (s' = s) by congruence. subst s'. unfold shows_a in Hsa. rewrite Hpa, Hcomp in Hsa. unfold set_activities in Hsa. destruct (h_act h0); injection Hsa as <-; reflexivity. }
    assert (Hstep : forall k a b, nth_error hs k = Some a -> nth_error hs (S k) = Some b -> h_net a = n ->
      h_net b = n /\ updated W h None n (h_act a) (Z.of_nat k + 1) (past_of W (g_past g) (firstn (S k) (map h_act hs))) (InStr "__timestep__") (h_act b)).
    { intros k a b Ek Ek' Hnet. destruct (rs_step _ _ _ _ _ _ _ _ _ Hrun k a b Ek Ek') as (u & i & past & s & Ei & Hpast & Hts & _).
      assert (Ei' : i = InStr "__timestep__") by (unfold timestep_input in Ei; destruct (_ =? _); congruence). subst i.
      assert (Hlen : (k < length hs)%nat) by (apply nth_error_Some; congruence).
      assert (Epast : past = past_of W (g_past g) (firstn (S k) (map h_act hs))).
      { apply (past_at_unique _ _ _ _ _ Hpast). apply get_past_ok. apply past_total.
        - destruct hs; [cbn in Hlen; lia|discriminate].
        - rewrite firstn_length, map_length. lia.
        - clear - Hraw. revert k. induction Hraw as [|s S l l' Hs Hf IH]; intros k; cbn [firstn]; [constructor|constructor; [assumption|]]. destruct k; [constructor|apply (IH k)]. }
      rewrite <- Epast. unfold timestep in Hts. destruct (g_order g).
      - destruct Hts as (ks & u1 & n1 & Hs & Hadj & Htop). unfold topology_step in Htop. rewrite Ht in Htop. destruct Htop as [_ ->]. rewrite Hnet in *.
        destruct (pure_activities W h None g _ _ _ _ _ _ _ _ _ Hr Hp Hnd Hs) as (_ & E1 & E2 & Hup). rewrite E1, E2 in Hadj. split; [exact Hadj|exact Hup].
      - destruct Hts as (ks & u1 & Htop & Hs). unfold topology_step in Htop. rewrite Ht in Htop. destruct Htop as [_ Hnb]. rewrite Hnet in *. rewrite ?Hnb in *.
        destruct (pure_activities W h None g _ _ _ _ _ _ _ _ _ Hr Hp Hnd Hs) as (_ & _ & _ & Hup). auto.
      - destruct Hts as (ks & u1 & Htop & Hs). unfold topology_step in Htop. rewrite Ht in Htop. destruct Htop as [_ Hnb]. rewrite Hnet in *. rewrite ?Hnb in *.
        destruct (pure_activities W h None g _ _ _ _ _ _ _ _ _ Hr Hp Hnd Hs) as (_ & _ & _ & Hup). auto. }
    assert (Hnets : forall k a, nth_error hs k = Some a -> h_net a = n).
    { induction k as [|k IH]; intros a Ek; [rewrite (rs_first _ _ _ _ _ _ _ _ _ Hrun) in Ek; injection Ek as <-; auto|].
      destruct (nth_error hs k) as [h0|] eqn:E0; [|apply nth_error_None in E0; assert (nth_error hs (S k) = None) by (apply nth_error_None; lia); congruence].
      apply (Hstep k h0 a E0 Ek (IH h0 eq_refl)). }
    exists (map h_act hs). split; [rewrite map_length, (rs_length _ _ _ _ _ _ _ _ _ Hrun); assumption|].
    split; [eapply Forall2_impl; [|exact Hraw]; intros s S Es; unfold activities; rewrite Es; destruct S; reflexivity|].
    split; [rewrite nth_error_map, (rs_first _ _ _ _ _ _ _ _ _ Hrun); reflexivity|].
    intros k S S' E1 E2. rewrite nth_error_map in E1, E2. destruct (nth_error hs k) as [a|] eqn:Ea; [|discriminate]. destruct (nth_error hs (Datatypes.S k)) as [b|] eqn:Eb; [|discriminate].
    injection E1 as <-. injection E2 as <-. apply (Hstep k a b Ea Eb (Hnets k a Ea)).
  Qed.
End Forward.

Section Reversible.
  Context {L V U I BA BN : Type} `{EqD L}.
  Context (W : env L V Z BA BN).
  Notation network := (network L V).
  Notation acts := (dict L Z).
  Notation ctx := (node_ctx L V Z I).
  Notation args := (@args L V Z U I).
  Notation tick := (InStr "__timestep__").

  (** [f] looks at the node, its neighbourhood and the activities, but not at the time, the past or the input *)
  Definition timeless (f : ctx -> res Z) : Prop := forall x y, x_label x = x_label y -> x_nbrs x = x_nbrs y -> x_nacts x = x_nacts y ->
    x_conn x = x_conn y -> x_cur x = x_cur y -> (forall v, dget (x_acts x) v = dget (x_acts y) v) -> f x = f y.

  Definition same_keys (n : network) (d : acts) : Prop := forall v, In v (dkeys d) <-> In v (nodes n).

  Lemma none_keys {B} (d : dict L B) v : ~ In v (dkeys d) -> dget d v = None.
  Proof. intros Hn. destruct (dget d v) eqn:E; [|reflexivity]. exfalso. apply Hn. apply dget_some_in in E. apply in_map_iff. eexists; split; [|exact E]. reflexivity. Qed.

  Lemma same_keys_covers n d : same_keys n d -> covers n d.
  Proof. intros Hk v Hv. apply Hk in Hv. apply dmem_true in Hv. unfold dmem in Hv. destruct (dget d v); [eauto|discriminate]. Qed.

  (** the past entry seen at step [length hist] with one past condition *)
  Lemma past_entry_one pc hist (S : acts) (x : ctx) v e : x_past x = past_of W [pc] (hist ++ [S]) ->
    (e = (match rev hist with [] => to_dict W pc | P :: _ => P end)) -> e <> [] -> past_activity_of x v (-1) = of_opt KeyError (dget e v).
  Proof.
    intros Hp He Hne. unfold past_activity_of. rewrite Hp. unfold past_of. cbn [of_opt rbind]. rewrite app_length. cbn [length]. rewrite removelast_last.
    replace (length hist + 1 - 1)%nat with (length hist) by lia.
    assert (E : skipn (length hist) (map (fun c => Some (to_dict W c)) [pc] ++ map shown_acts hist) = [Some e]).
    { destruct (rev hist) as [|P l] eqn:Er.
      - assert (hist = []) by (rewrite <- (rev_involutive hist), Er; reflexivity). subst. reflexivity.
      - assert (Eh : hist = rev l ++ [P]) by (rewrite <- (rev_involutive hist), Er; reflexivity). rewrite Eh. rewrite app_length. cbn [length]. rewrite map_app. cbn [map].
        replace (length (rev l) + 1)%nat with (Datatypes.S (length (rev l))) by lia. cbn [app skipn].
        rewrite skipn_app, skipn_all2 by (rewrite map_length; lia). rewrite map_length, Nat.sub_diag. cbn [skipn app]. unfold shown_acts. subst e. destruct P; [congruence|reflexivity]. }
    rewrite E. cbn [py_nth py_index length]. reflexivity.
  Qed.

  Lemma nbrs_of_unique n (v : L) l l' : nbrs_of (V:=V) n v l -> nbrs_of n v l' -> l = l'.
  Proof. unfold nbrs_of. destruct (net_rot n); [congruence|]. intros (i & E & ->) (i' & E' & ->). congruence. Qed.

  Lemma nacts_unique (S S' : acts) l a a' : (forall v, dget S v = dget S' v) -> Forall2 (fun w b => dget S w = Some b) l a -> Forall2 (fun w b => dget S' w = Some b) l a' -> a = a'.
  Proof.
    intros HS Hf. revert a'. induction Hf as [|w b l a Hw Hf IH]; intros a' Hf'; inversion Hf'; subst; [reflexivity|]. f_equal; [|auto]. rewrite HS in Hw. congruence.
  Qed.

  Lemma timeless_ctx f n (S S' : acts) t t' past past' v (x y : ctx) : timeless f -> (forall v, dget S v = dget S' v) ->
    ctx_for W n S t past tick v x -> ctx_for W n S' t' past' tick v y -> f x = f y.
  Proof.
    intros Hf HS Hx Hy. pose proof (nbrs_of_unique _ _ _ _ (cf_nbrs _ _ _ _ _ _ _ _ Hx) (cf_nbrs _ _ _ _ _ _ _ _ Hy)) as En. apply Hf.
    - rewrite (cf_label _ _ _ _ _ _ _ _ Hx), (cf_label _ _ _ _ _ _ _ _ Hy). reflexivity.
    - assumption.
    - eapply nacts_unique; [exact HS|apply (cf_nacts _ _ _ _ _ _ _ _ Hx)|]. rewrite En. apply (cf_nacts _ _ _ _ _ _ _ _ Hy).
    - pose proof (cf_conn _ _ _ _ _ _ _ _ Hx). pose proof (cf_conn _ _ _ _ _ _ _ _ Hy). congruence.
    - pose proof (cf_cur _ _ _ _ _ _ _ _ Hx). pose proof (cf_cur _ _ _ _ _ _ _ _ Hy). rewrite HS in *. congruence.
    - rewrite (cf_acts _ _ _ _ _ _ _ _ Hx), (cf_acts _ _ _ _ _ _ _ _ Hy). assumption.
  Qed.

  Lemma updated_keys (f : ctx -> res Z) n (S : acts) t past S' : updated W f None n S t past tick S' -> same_keys n S'.
  Proof. intros [Hk _] v. unfold dkeys. rewrite Hk. tauto. Qed.

  Lemma sync_keys (f : ctx -> res Z) pc n hs c : same_keys n c -> nth_error hs 0 = Some c -> synchronous W f pc n hs -> forall k S, nth_error hs k = Some S -> same_keys n S.
  Proof.
    intros Hc Hz Hs [|k] S Ek; [rewrite Hz in Ek; injection Ek as <-; assumption|]. destruct (nth_error hs k) as [S0|] eqn:E0; [|apply nth_error_None in E0; assert (nth_error hs (Datatypes.S k) = None) by (apply nth_error_None; lia); congruence].
    eapply updated_keys. apply (Hs k S0 S E0 Ek).
  Qed.

  Lemma nonempty_keys n (d : acts) v : same_keys n d -> In v (nodes n) -> d <> [].
  Proof. intros Hk Hv ->. apply Hk in Hv. destruct Hv. Qed.

  (** one step of the reversible rule, with [P] the state before [S] *)
  Lemma reversible_step (f : ctx -> res Z) n pc (P c : acts) hs k S S' :
    to_dict W pc = P -> same_keys n P -> same_keys n c -> nth_error hs 0 = Some c -> synchronous W (reversible_call f) [pc] n hs ->
    nth_error hs k = Some S -> nth_error hs (Datatypes.S k) = Some S' -> forall B, nth_error (P :: hs) k = Some B ->
    forall v, In v (nodes n) -> exists (x : ctx) t past r b, ctx_for W n S t past tick v x /\ f x = Ok r /\ dget B v = Some b /\ dget S' v = Some (Z.lxor r b).
  Proof.
    intros Hpc HP Hc Hz Hs Ek Ek' B EB v Hv. destruct (Hs k S S' Ek Ek') as [_ Hu]. destruct (Hu v Hv) as (x & a & a' & Hx & Ha & -> & Hg).
    unfold reversible_call in Ha. inv_bind Ha r Er. inv_bind Ha b Eb. injection Ha as <-.
    assert (HB : same_keys n B).
    { destruct k; cbn in EB; [injection EB as <-; assumption|]. eapply sync_keys; [exact Hc|exact Hz|exact Hs|exact EB]. }
    assert (Ef : firstn (Datatypes.S k) hs = firstn k hs ++ [S]) by (apply firstn_snoc; assumption).
    assert (Hlen : (k < length hs)%nat) by (apply nth_error_Some; congruence).
    rewrite (past_entry_one pc (firstn k hs) S x _ B) in Eb; [|rewrite (cf_past _ _ _ _ _ _ _ _ Hx), <- Ef; reflexivity| |eapply nonempty_keys; eassumption].
    - apply of_opt_inv in Eb. rewrite (cf_label _ _ _ _ _ _ _ _ Hx) in Eb. eauto 12.
    - destruct k as [|k]; [cbn in EB |- *; congruence|]. cbn [nth_error] in EB. rewrite (firstn_snoc hs k B EB), rev_app_distr. reflexivity.
  Qed.

  Theorem reversible_run (f : ctx -> res Z) fuel (u0 : U) n c pc T (g : args) uf traj :
    static g (stateless (reversible_call f)) -> timeless f -> g_past g = [pc] -> NoDup (nodes n) -> closed n ->
    same_keys n (to_dict W pc) -> same_keys n (to_dict W c) -> 2 <= T ->
    evolve W fuel u0 n (Some c) (Some T) None g = Ok (uf, traj) ->
    exists hs, Z.of_nat (length hs) = T /\ Forall2 (fun s S => activities W s = Ok (shown_acts S)) traj hs /\ nth_error hs 0 = Some (to_dict W c) /\
      forall Slast Sprev fuel' u1 (g' : args), nth_error hs (Z.to_nat T - 1) = Some Slast -> nth_error hs (Z.to_nat T - 2) = Some Sprev ->
        static g' (stateless (reversible_call f)) -> g_past g' = [CDict Slast] -> (Z.to_nat T <= fuel')%nat ->
        exists uf' traj' hs', evolve W fuel' u1 n (Some (CDict Sprev)) (Some T) None g' = Ok (uf', traj') /\ Z.of_nat (length hs') = T /\
          Forall2 (fun s S => activities W s = Ok (shown_acts S)) traj' hs' /\
          forall j S S0, nth_error hs' j = Some S -> nth_error (to_dict W pc :: hs) (Z.to_nat T - 1 - j) = Some S0 -> forall v, dget S v = dget S0 v.
  Proof.
    intros Hst Hf Hp Hnd Hcl HkP Hkc HT E. destruct (stateless_forward W fuel u0 n c T g _ uf traj Hst Hnd ltac:(lia) E) as (hs & Hl & Hsh & Hz & Hs).
    rewrite Hp in Hs. exists hs. split; [assumption|]. split; [assumption|]. split; [assumption|].
    intros Slast Sprev fuel' u1 g' El Ep Hst' Hp' Hfuel.
    pose proof (sync_keys _ _ _ _ _ Hkc Hz Hs) as Hkeys.
    set (full := to_dict W pc :: hs) in *.
    assert (Hfull : forall k S, nth_error full k = Some S -> same_keys n S) by (intros [|k] S Ek; cbn in Ek; [injection Ek as <-; assumption|eauto]).
    assert (Hlen0 : length (to_dict W c) = net_len n).
    { unfold evolve in E. cbn [get_input_function rbind] in E. destruct Hst as (Hr & _). rewrite Hr in E. rewrite andb_true_r in E.
      destruct (Nat.eqb_spec (length (to_dict W c)) (net_len n)); [assumption|discriminate]. }
    assert (HlenS : forall k S, nth_error hs k = Some S -> length S = net_len n).
    { intros [|k] S Ek; [congruence|]. destruct (nth_error hs k) as [S0|] eqn:E0; [|apply nth_error_None in E0; assert (nth_error hs (Datatypes.S k) = None) by (apply nth_error_None; lia); congruence].
      destruct (Hs k S0 S E0 Ek) as [Hm _]. rewrite <- (map_length fst S), Hm. unfold nodes, dkeys, net_len. apply map_length. }
    (* going back *)
    pose (Inv := fun hist : list acts => (length hist <= Z.to_nat T)%nat /\ forall j S S0, nth_error hist j = Some S -> nth_error full (Z.to_nat T - 1 - j) = Some S0 -> forall v, dget S v = dget S0 v).
    assert (Hback : forall hist S v (x : ctx), Inv (hist ++ [S]) -> (length hist + 1 < Z.to_nat T)%nat -> In v (nodes n) ->
      ctx_for W n S (Z.of_nat (length hist) + 1) (past_of W [CDict Slast] (hist ++ [S])) tick v x ->
      exists S0 b, nth_error full (Z.to_nat T - 2 - length hist) = Some S0 /\ dget S0 v = Some b /\ reversible_call f x = Ok b).
    { intros hist S v x [_ Hi] Hlt Hv Hx. set (m := length hist) in *.
      assert (Hm : (length full = Z.to_nat T + 1)%nat) by (unfold full; cbn [length]; lia).
      destruct (nth_error full (Z.to_nat T - 2 - m)) as [B|] eqn:EB; [|apply nth_error_None in EB; lia].
      destruct (nth_error full (Z.to_nat T - 1 - m)) as [M|] eqn:EM; [|apply nth_error_None in EM; lia].
      destruct (nth_error full (Z.to_nat T - m)) as [F|] eqn:EF; [|apply nth_error_None in EF; lia].
      assert (EMh : nth_error hs (Z.to_nat T - 2 - m) = Some M) by (replace (Z.to_nat T - 1 - m)%nat with (Datatypes.S (Z.to_nat T - 2 - m)) in EM by lia; exact EM).
      assert (EFh : nth_error hs (Datatypes.S (Z.to_nat T - 2 - m)) = Some F) by (replace (Z.to_nat T - m)%nat with (Datatypes.S (Datatypes.S (Z.to_nat T - 2 - m))) in EF by lia; exact EF).
      destruct (reversible_step f n pc (to_dict W pc) (to_dict W c) hs _ M F eq_refl HkP Hkc Hz Hs EMh EFh B EB v Hv) as (y & t & past & r & b & Hy & Er & Eb & EFv).
      assert (HSM : forall w, dget S w = dget M w).
      { intros w. apply (Hi m S M); [rewrite nth_error_app2 by (unfold m; lia); unfold m; rewrite Nat.sub_diag; reflexivity|assumption]. }
      exists B, b. split; [reflexivity|]. split; [assumption|]. unfold reversible_call.
      rewrite (timeless_ctx f n S M _ _ _ _ v x y Hf HSM Hx Hy), Er. cbn [rbind].
      (* the state before S in the backward run shows F *)
      set (e := match rev hist with [] => Slast | P :: _ => P end).
      assert (HeF : forall w, dget e w = dget F w).
      { unfold e. destruct (rev hist) as [|P l] eqn:Erev.
        - assert (Hh0 : hist = []) by (rewrite <- (rev_involutive hist), Erev; reflexivity). assert (Hm0 : m = 0%nat) by (unfold m; rewrite Hh0; reflexivity).
          assert (F = Slast). { rewrite Hm0 in EFh. replace (Datatypes.S (Z.to_nat T - 2 - 0)) with (Z.to_nat T - 1)%nat in EFh by lia. congruence. } congruence.
        - assert (Eh : hist = rev l ++ [P]) by (rewrite <- (rev_involutive hist), Erev; reflexivity).
          assert (Em : m = Datatypes.S (length l)) by (unfold m; rewrite Eh, app_length, rev_length; cbn [length]; lia).
          apply (Hi (length l) P F).
          + rewrite Eh, <- app_assoc, nth_error_app2 by (rewrite rev_length; lia). rewrite rev_length, Nat.sub_diag. reflexivity.
          + replace (Z.to_nat T - 1 - length l)%nat with (Z.to_nat T - m)%nat by lia. assumption. }
      rewrite (past_entry_one (CDict Slast) hist S x (x_label x) e (cf_past _ _ _ _ _ _ _ _ Hx)).
      - rewrite (cf_label _ _ _ _ _ _ _ _ Hx), HeF, EFv. cbn [of_opt rbind]. f_equal. rewrite Z.lxor_comm, (Z.lxor_comm r b), Z.lxor_assoc, Z.lxor_nilpotent, Z.lxor_0_r. reflexivity.
      - reflexivity.
      - intros He. rewrite He in HeF. specialize (HeF v). rewrite EFv in HeF. discriminate. }
    destruct (static_run W fuel' u1 n (CDict Sprev) T g' (stateless (reversible_call f)) (fun hs' _ => Inv hs' /\ Forall (covers n) hs') Hst' ltac:(lia) Hfuel) as (uf' & traj' & hs' & E' & Hl' & Hsh' & [Hi' _]).
    - cbn [to_dict]. apply (HlenS _ _ Ep).
    - cbn [to_dict]. split; [split; [cbn [length]; lia|]|constructor; [apply same_keys_covers, (Hkeys _ _ Ep)|constructor]].
      intros [|j] S S0 E1 E2 v; [|destruct j; discriminate]. injection E1 as <-. replace (Z.to_nat T - 1 - 0)%nat with (Datatypes.S (Z.to_nat T - 2)) in E2 by lia. cbn in E2. congruence.
    - intros mk tab hist S u [Hi Hcov] Hlt.
      assert (HcS : covers n S) by (apply Forall_app in Hcov; destruct Hcov as [_ Hx]; inversion Hx; assumption).
      destruct Hst' as (Hr' & Ht' & Hpt' & Hm' & Hc' & Hpa'). rewrite Hp'.
      set (t := Z.of_nat (length hist) + 1) in *. set (past := past_of W [CDict Slast] (hist ++ [S])) in *.
      destruct (nth_error full (Z.to_nat T - 2 - length hist)) as [B|] eqn:EB; [|apply nth_error_None in EB; unfold full in EB; cbn [length] in EB; lia].
      destruct (sweep_total W g' mk (stateless (reversible_call f)) t S n past tab u
        (fun done _ curr => map fst curr = done /\ forall v, In v done -> dget curr v = dget B v) Hm' Hpt' Hcl HcS) as (s & Es & Ea & Er & _ & Hk & Hv).
      + split; [reflexivity|intros v []].
      + intros done v rest u2 curr x En [Hk Hd] Hx.
        assert (Hin : In v (nodes n)) by (rewrite En; apply in_or_app; right; left; reflexivity).
        destruct (Hback hist S v x Hi ltac:(lia) Hin Hx) as (S0 & b & ES0 & Eb & Ecall). rewrite EB in ES0. injection ES0 as <-.
        exists u2, b. split; [unfold stateless; rewrite Ecall; reflexivity|].
        assert (Hnew : ~ In v done) by (rewrite En in Hnd; apply NoDup_remove_2 in Hnd; intros Hx'; apply Hnd, in_or_app; left; assumption). split.
        * change (map fst (dset curr v b)) with (dkeys (dset curr v b)). rewrite dkeys_dset. assert (Em : dmem curr v = false) by (apply dmem_false; unfold dkeys; rewrite Hk; assumption). rewrite Em. unfold dkeys. rewrite Hk. reflexivity.
        * intros w Hw. rewrite dget_dset. destruct (eqd w v) as [->|Hne]; [symmetry; assumption|]. apply in_app_or in Hw. destruct Hw as [Hw|[Hw|[]]]; [auto|congruence].
      + exists s. split; [exact Es|]. split; [assumption|]. split; [assumption|].
        assert (HB : same_keys n B) by (apply (Hfull _ _ EB)).
        assert (Hlook : forall v, dget (s_curr s) v = dget B v).
        { intros v. destruct (in_dec eqd v (nodes n)) as [Hin|Hnin]; [auto|]. rewrite !none_keys; [reflexivity| |].
          all: first [rewrite (HB v); assumption|unfold dkeys; rewrite Hk; assumption]. }
        split.
        * destruct Hi as [Hil Hi]. split; [rewrite !app_length in *; cbn [length] in *; lia|]. intros j S1 S0 E1 E2 v.
          destruct (le_lt_dec (length (hist ++ [S])) j) as [Hle|Hlt'].
          -- assert (Hj : (j < length ((hist ++ [S]) ++ [s_curr s]))%nat) by (apply nth_error_Some; congruence). rewrite app_length in Hj. cbn [length] in Hj.
             assert (Ej : j = length (hist ++ [S])) by lia. rewrite nth_error_app2, Ej, Nat.sub_diag in E1 by lia. injection E1 as <-. rewrite Hlook.
             rewrite Ej, app_length in E2. cbn [length] in E2. replace (Z.to_nat T - 1 - (length hist + 1))%nat with (Z.to_nat T - 2 - length hist)%nat in E2 by lia. congruence.
          -- rewrite nth_error_app1 in E1 by assumption. apply (Hi j S1 S0 E1 E2).
        * apply Forall_app. split; [assumption|]. constructor; [|constructor]. intros v Hin. rewrite Hlook. apply (same_keys_covers n B HB v Hin).
    - exists uf', traj', hs'. split; [assumption|]. split; [assumption|]. split; [assumption|]. apply Hi'.
  Qed.
End Reversible.
