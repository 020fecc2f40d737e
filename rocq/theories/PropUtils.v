(** * C59 - C61, C64: utilities and initial conditions *)
From Coq Require Import Sorted.
From Verif Require Import Py PyFacts ListFacts Network Evolve Rules RulesSpec RulesProofs Utils UtilsProofs PropEvolve.
Open Scope string_scope.
Open Scope list_scope.
Open Scope Z_scope.

(** C59: [ls] lists every r-element subset of {0, .., n-1} exactly once, each as its ascending list *)
Theorem C59_ncr : (forall n r, exists ls, NoDup ls /\
      (forall l, In l ls <-> StronglySorted lt l /\ length l = r /\ Forall (fun x => (x < n)%nat) l) /\
      ncr (Z.of_nat n) (Z.of_nat r) = Ok (Z.of_nat (length ls))) /\
    (forall n r, n < 0 -> ncr n r = Err (Raise "n must be a non-negative int")) /\
    (forall n r, 0 <= n -> r < 0 -> ncr n r = Err (Raise "r must be a non-negative int")).
Proof.
  split; [|split].
  - intros n r. exists (subsets n r). split; [apply NoDup_subsets|]. split; [apply subsets_spec|]. rewrite length_subsets. apply ncr_binom.
  - intros n r Hn. unfold ncr. destruct (Z.ltb_spec n 0); [reflexivity|lia].
  - intros n r Hn Hr. unfold ncr. destruct (Z.ltb_spec n 0); [lia|]. destruct (Z.ltb_spec r 0); [reflexivity|lia].
Qed.
Print Assumptions C59_ncr.

Example C59_nonvacuous : ncr 5 2 = Ok 10 /\ ncr 2 5 = Ok 0 /\ ncr 40 20 = Ok 137846528820 /\ length (subsets 5 2) = 10%nat.
Proof. vm_compute. auto. Qed.

(** C60 *)
Theorem C60_binarize : forall acts, acts <> [] -> Forall (fun a => exists x rest, a = x :: rest /\ 0 <= x) acts ->
    exists rows width, binarize_for_plotting acts = Ok rows /\
      Forall2 (fun a r => is_bits r /\ length r = width /\ Some (number 2 r) = hd_error a) acts rows /\
      (width = 1%nat \/ exists rest, In (1 :: rest) rows).
Proof.
  intros acts Hne Hf. unfold binarize_for_plotting.
  assert (Hm : exists ds, rmap (fun a => x <- of_opt IndexError (py_nth a 0) ;; bin_digits x) acts = Ok ds /\
    Forall2 (fun a d => exists x rest, a = x :: rest /\ 0 <= x /\ bin_digits x = Ok d) acts ds).
  { clear Hne. induction Hf as [|a acts (x & rest & -> & Hx) Hf IH]; [exists []; split; [reflexivity|constructor]|]. destruct IH as (ds & E & Hd).
    destruct (bin_digits_spec x Hx) as (d & Ed & _). exists (d :: ds). cbn [rmap]. change (py_nth (x :: rest) 0) with (Some x). cbn [of_opt rbind].
    rewrite Ed. cbn [rbind]. rewrite E. split; [reflexivity|]. constructor; [eauto|assumption]. }
  destruct Hm as (ds & E & Hd). rewrite E. cbn [rbind]. set (w := list_max (map (@length Z) ds)).
  assert (Hds : ds <> []) by (intros ->; inversion Hd; subst; congruence).
  exists (map (fun a => repeat 0 (w - length a) ++ a) ds), w. split; [destruct ds; [congruence|reflexivity]|]. split.
  - assert (Hw : forall d, In d ds -> (length d <= w)%nat) by (intros d Hin; apply list_max_ge, in_map; assumption).
    clearbody w. clear E Hne Hf Hds. induction Hd as [|a d acts ds (x & rest & -> & Hx & Ed) Hd IH]; [constructor|]. cbn [map]. constructor; [|apply IH; intros; apply Hw; right; assumption].
    destruct (bin_digits_spec x Hx) as (d' & Ed' & Hb & Hv & _). rewrite Ed in Ed'. injection Ed' as <-. specialize (Hw d (or_introl eq_refl)).
    split; [apply bits_states, is_states_zeros; [lia|apply bits_states; assumption]|]. split; [rewrite app_length, repeat_length; lia|]. rewrite number_zeros, Hv. reflexivity.
  - assert (Hin : In w (map (@length Z) ds)) by (apply list_max_in; destruct ds; [congruence|discriminate]). apply in_map_iff in Hin. destruct Hin as (d & El & Hin).
    assert (Hx : exists x, 0 <= x /\ bin_digits x = Ok d).
    { clear - Hd Hin. induction Hd as [|a d' acts ds (x & rest & -> & Hx & Ed) Hd IH]; [destruct Hin|]. destruct Hin as [<-|Hin]; [eauto|auto]. }
    destruct Hx as (x & Hx & Ed). destruct (Z.eq_dec x 0) as [->|Hnz].
    + left. injection Ed as <-. symmetry. exact El.
    + right. destruct (bin_digits_leading x d ltac:(lia) Ed) as [rest ->]. exists rest. apply in_map_iff. exists (1 :: rest). split; [|assumption].
      rewrite El, Nat.sub_diag. reflexivity.
Qed.
Print Assumptions C60_binarize.

(** an empty list, an empty row before any negative number, or a negative number raise *)
Theorem C60_raises : binarize_for_plotting [] = Err ValueError /\
  (forall pre post, Forall (fun a => exists x rest, a = x :: rest /\ 0 <= x) pre -> binarize_for_plotting (pre ++ [] :: post) = Err IndexError) /\
  (forall pre x rest post, x < 0 -> Forall (fun a => exists x rest, a = x :: rest /\ 0 <= x) pre -> binarize_for_plotting (pre ++ (x :: rest) :: post) = Err ValueError).
Proof.
  assert (Hg : forall (a : list Z) post e pre, (x <- of_opt IndexError (py_nth a 0) ;; bin_digits x) = Err e ->
    Forall (fun a => exists x rest, a = x :: rest /\ 0 <= x) pre -> binarize_for_plotting (pre ++ a :: post) = Err e).
  { intros a post e pre Ea Hf. unfold binarize_for_plotting.
    replace (rmap _ (pre ++ a :: post)) with (@Err (list (list Z)) e); [reflexivity|]. symmetry.
    induction Hf as [|b pre (x & rest & -> & Hx) Hf IH]; cbn [app rmap]; [rewrite Ea; reflexivity|].
    destruct (bin_digits_spec x Hx) as (d & Ed & _). change (py_nth (x :: rest) 0) with (Some x). cbn [of_opt rbind].
    rewrite Ed. cbn [rbind]. rewrite IH. reflexivity. }
  split; [reflexivity|]. split; intros; apply Hg; try assumption; [reflexivity|].
  change (py_nth (x :: rest) 0) with (Some x). cbn [of_opt rbind]. unfold bin_digits. destruct (Z.ltb_spec x 0); [reflexivity|lia].
Qed.
Print Assumptions C60_raises.

Example C60_nonvacuous : binarize_for_plotting [[2]; [35]; [12]] = Ok [[0;0;0;0;1;0]; [1;0;0;0;1;1]; [0;0;1;1;0;0]] /\ binarize_for_plotting [[0]; [0]] = Ok [[0]; [0]].
Proof. vm_compute. auto. Qed.

(** C61: [Ss] are the activities of the states (None if they were not persisted); [leb] is the order of the labels *)
Theorem C61_activities_as_list : forall {L V A BA BN} `{EqD L} (W : env L V A BA BN) (leb : L -> L -> bool) traj Ss,
    (forall x y, leb x y = true \/ leb y x = true) -> (forall x y z, leb x y = true -> leb y z = true -> leb x z = true) ->
    Forall2 (fun s S => Evolve.activities W s = Ok S) traj Ss -> (forall d, In (Some d) Ss -> NoDup (dkeys d)) ->
    exists rows, get_activities_over_time_as_list W leb traj = Ok rows /\
      Forall2 (fun d row => exists labels, Permutation labels (dkeys d) /\ StronglySorted (fun x y => leb x y = true) labels /\
                 Forall2 (fun k a => dget d k = Some a) labels row)
        (flat_map (fun S => match S with None | Some [] => [] | Some d => [d] end) Ss) rows.
Proof.
  intros L V A BA BN EL W leb traj Ss Htot Htr Hf Hnd. destruct (acts_list_ok W leb traj Ss Hf Hnd) as (rows & E & Hr). exists rows. split; [assumption|].
  clear E. revert Hr. generalize (flat_map (fun S : option (dict L A) => match S with None | Some [] => [] | Some d => [d] end) Ss). intros ds Hr.
  induction Hr as [|d row ds rows Hd Hr IH]; constructor; [|assumption].
  exists (sorted leb (dkeys d)). split; [apply sorted_perm|]. split; [apply sorted_sorted; assumption|assumption].
Qed.
Print Assumptions C61_activities_as_list.

Example C61_nonvacuous : get_activities_over_time_as_list W0 Z.leb
  [mkState (Some (Raw [(2, 7); (0, 5); (1, 6)])) None; mkState None None; mkState (Some (Raw [(0, 1); (10, 3); (9, 2)])) None]
  = Ok [[5; 6; 7]; [1; 2; 3]].
Proof. vm_compute. reflexivity. Qed.

(** C64 *)
Theorem C64_init_simple : forall size val,
    (0 < size -> exists l, init_simple size val = Ok l /\ Z.of_nat (length l) = size /\
       forall i, 0 <= i < size -> nth_error l (Z.to_nat i) = Some (if i =? size / 2 then val else 0)) /\
    (size = 0 -> init_simple size val = Err IndexError) /\ (size < 0 -> init_simple size val = Err ValueError).
Proof.
  intros size val. unfold init_simple, np_zeros. split; [|split].
  - intros Hs. destruct (Z.ltb_spec size 0); [lia|]. cbn [rbind]. unfold py_set_nth. rewrite repeat_length.
    assert (Hd : 0 <= size / 2 < size) by (split; [apply Z.div_pos; lia|apply Z.div_lt; lia]).
    rewrite Z2Nat.id by lia. rewrite py_index_at by (rewrite Z2Nat.id by lia; lia). cbn [of_opt]. eexists. split; [reflexivity|]. split.
    + rewrite length_upd_nth, repeat_length. lia.
    + intros i Hi. rewrite nth_error_upd_nth. assert (Er : nth_error (repeat 0 (Z.to_nat size)) (Z.to_nat i) = Some 0) by (apply nth_error_repeat; lia).
      rewrite Er. destruct (Nat.eq_dec (Z.to_nat i) (Z.to_nat (size / 2))), (Z.eqb_spec i (size / 2)); try lia; reflexivity.
  - intros ->. reflexivity.
  - intros Hs. destruct (Z.ltb_spec size 0); [reflexivity|lia].
Qed.
Print Assumptions C64_init_simple.

Theorem C64_init_simple2d : forall rows cols val, 0 < rows -> 0 < cols ->
    exists l, init_simple2d rows cols val = Ok l /\ Z.of_nat (length l) = rows * cols /\
      forall a b, 0 <= a < rows -> 0 <= b < cols -> nth_error l (Z.to_nat (a * cols + b)) = Some (if (a =? rows / 2) && (b =? cols / 2) then val else 0).
Proof.
  intros rows cols val Hr Hc. unfold init_simple2d. destruct (Z.ltb_spec rows 0); [lia|]. destruct (Z.ltb_spec cols 0); [lia|]. cbn [orb].
  assert (Hdr : 0 <= rows / 2 < rows) by (split; [apply Z.div_pos; lia|apply Z.div_lt; lia]).
  assert (Hdc : 0 <= cols / 2 < cols) by (split; [apply Z.div_pos; lia|apply Z.div_lt; lia]).
  unfold py_nth. rewrite repeat_length, py_index_at by (rewrite Z2Nat.id by lia; lia). rewrite nth_error_repeat by lia. cbn [of_opt rbind].
  unfold py_set_nth at 1. rewrite repeat_length, py_index_at by (rewrite Z2Nat.id by lia; lia). cbn [of_opt rbind].
  unfold py_set_nth. rewrite repeat_length, py_index_at by (rewrite Z2Nat.id by lia; lia). cbn [of_opt rbind]. eexists. split; [reflexivity|].
  set (row' := upd_nth (repeat 0 (Z.to_nat cols)) (Z.to_nat (cols / 2)) (fun _ => val)).
  assert (Hrow : forall X (l : list (list X)) m, (forall r, In r l -> length r = m) -> length (concat l) = (length l * m)%nat /\
    forall p q r, nth_error l p = Some r -> (q < m)%nat -> nth_error (concat l) (p * m + q) = nth_error r q).
  { induction l as [|r l IH]; intros m Hl; [split; [reflexivity|intros [|p] q r E; discriminate]|]. destruct (IH m) as [I1 I2]; [intros; apply Hl; right; assumption|].
    pose proof (Hl r (or_introl eq_refl)) as Er. cbn [concat length]. split; [rewrite app_length; lia|]. intros [|p] q r' E Hq; cbn in E.
    - injection E as <-. rewrite nth_error_app1 by lia. reflexivity.
    - rewrite nth_error_app2 by (cbn; lia). rewrite Er. replace (S p * m + q - m)%nat with (p * m + q)%nat by (cbn; lia). apply I2; assumption. }
  destruct (Hrow Z (upd_nth (repeat (repeat 0 (Z.to_nat cols)) (Z.to_nat rows)) (Z.to_nat (rows / 2)) (fun _ => row')) (Z.to_nat cols)) as [H1 H2].
  { intros r Hin. apply In_nth_error in Hin. destruct Hin as [p Ep]. rewrite nth_error_upd_nth in Ep.
    destruct (nth_error (repeat (repeat 0 (Z.to_nat cols)) (Z.to_nat rows)) p) as [r0|] eqn:E0; [|destruct (Nat.eq_dec p (Z.to_nat (rows / 2))); discriminate].
    apply nth_error_In, repeat_spec in E0. subst r0. destruct (Nat.eq_dec p (Z.to_nat (rows / 2))); injection Ep as <-.
    - unfold row'. rewrite length_upd_nth. apply repeat_length.
    - apply repeat_length. }
  split; [rewrite H1, length_upd_nth, repeat_length; nia|]. intros a b Ha Hb.
  replace (Z.to_nat (a * cols + b)) with (Z.to_nat a * Z.to_nat cols + Z.to_nat b)%nat by nia.
  rewrite (H2 _ _ (if a =? rows / 2 then row' else repeat 0 (Z.to_nat cols))); [| |lia].
  - destruct (Z.eqb_spec a (rows / 2)); cbn [andb]; [|apply nth_error_repeat; lia]. unfold row'. rewrite nth_error_upd_nth, nth_error_repeat by lia.
    destruct (Nat.eq_dec (Z.to_nat b) (Z.to_nat (cols / 2))), (Z.eqb_spec b (cols / 2)); try lia; reflexivity.
  - rewrite nth_error_upd_nth, nth_error_repeat by lia. destruct (Nat.eq_dec (Z.to_nat a) (Z.to_nat (rows / 2))), (Z.eqb_spec a (rows / 2)); try lia; reflexivity.
Qed.
Print Assumptions C64_init_simple2d.

Theorem C64_init_simple2d_raises : forall rows cols val, rows <= 0 \/ cols <= 0 -> is_ok (init_simple2d rows cols val) = false.
Proof.
  intros rows cols val Hz. unfold init_simple2d. destruct (Z.ltb_spec rows 0); [reflexivity|]. destruct (Z.ltb_spec cols 0); [reflexivity|]. cbn [orb].
  destruct (Z.eq_dec rows 0) as [->|Hr]; [reflexivity|]. assert (cols = 0) by lia. subst.
  unfold py_nth. destruct (py_index _ _) as [k|]; [|reflexivity]. destruct (nth_error _ k) as [r|] eqn:E; [|reflexivity]. apply nth_error_In, repeat_spec in E. subst. reflexivity.
Qed.
Print Assumptions C64_init_simple2d_raises.

(** [rand k m] is any outcome of m draws from 0..k-1 *)
Theorem C64_init_random : forall (rand : Z -> Z -> list Z) size k n e,
    (forall k m, 0 < k -> 0 <= m -> Z.of_nat (length (rand k m)) = m /\ Forall (fun x => 0 <= x < k) (rand k m)) ->
    let m := match n with Some m => m | None => size end in
    (0 <= m <= size -> 0 < k -> exists left right mid, init_random rand size k n e = Ok (repeat e left ++ mid ++ repeat e right) /\
       Z.of_nat (length mid) = m /\ Forall (fun x => 0 <= x < k) mid /\ Z.of_nat left + m + Z.of_nat right = size /\ (left <= right <= S left)%nat) /\
    (~ 0 <= m <= size -> init_random rand size k n e = Err (Raise "the number of randomized sites, if specified, must be >= 0 and <= size")).
Proof.
  intros rand size k n e Hrand m. unfold init_random. fold m. split.
  - intros Hm Hk. destruct (Z.ltb_spec size m); [lia|]. destruct (Z.ltb_spec m 0); [lia|]. cbn [orb]. destruct (Z.leb_spec k 0); [lia|].
    destruct (Hrand k m Hk ltac:(lia)) as [H1' H2']. pose proof (Z.div_mod (size - m) 2 ltac:(lia)) as Hd. pose proof (Z.mod_pos_bound (size - m) 2 ltac:(lia)) as Hb.
    exists (Z.to_nat ((size - m) / 2)), (Z.to_nat (size - m - (size - m) / 2)), (rand k m). split; [reflexivity|]. split; [assumption|]. split; [assumption|]. lia.
  - intros Hm. destruct (Z.ltb_spec size m); [reflexivity|]. destruct (Z.ltb_spec m 0); [reflexivity|lia].
Qed.
Print Assumptions C64_init_random.

Example C64_nonvacuous : init_simple 5 1 = Ok [0; 0; 1; 0; 0] /\ init_simple2d 2 3 7 = Ok [0; 0; 0; 0; 7; 0] /\
  init_random (fun k m => repeat (k - 1) (Z.to_nat m)) 6 3 (Some 3) 9 = Ok [9; 2; 2; 2; 9; 9] /\
  is_ok (init_random (fun k m => repeat (k - 1) (Z.to_nat m)) 6 3 (Some 7) 9) = false.
Proof. vm_compute. auto. Qed.
