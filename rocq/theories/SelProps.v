(** C09: selecting by value.  Arrays are strictly ascending rationals unless said
    otherwise; [tol a] is a ten-thousandth of the smallest spacing
    ([tolerance_is_small] below says so without unfolding it). *)
From Verif Require Import SelProofs.
From Coq Require Import ZifyBool ZifyNat Lqa Qabs.
Open Scope Z_scope.

(** * Single values *)

(** C09, single value: for EVERY non-empty array, in any order, the index is in
    range, nothing is closer, and it is the first such index. *)
Theorem nearest_index_is_nearest :
  forall (a : list Q) (v : Q), a <> [] ->
    (nearest_index a v < length a)%nat /\
    (forall i, (i < length a)%nat -> (Qabs (qnth a (nearest_index a v) - v) <= Qabs (qnth a i - v))%Q) /\
    (forall i, (i < nearest_index a v)%nat -> (Qabs (qnth a (nearest_index a v) - v) < Qabs (qnth a i - v))%Q).
Proof.
  intros a v Hne. unfold nearest_index. set (m := map _ a).
  assert (Hm : forall i, (i < length a)%nat -> nth_error m i = Some (Some (qabs (qnth a i - v)%Q))).
  { intros i Hi. apply (nth_error_map_q (fun x => Some (qabs (x - v)%Q))). exact Hi. }
  assert (Hlen : length m = length a) by apply map_length.
  assert (Hmne : m <> []) by (unfold m; destruct a; [congruence|discriminate]).
  destruct (argmin_spec m Hmne) as (w & H1 & H2 & H3).
  assert (Hlt : (argmin m < length a)%nat) by (rewrite <- Hlen; apply nth_error_Some; congruence).
  rewrite Hm in H1 by exact Hlt. injection H1 as <-.
  assert (Habs : forall x, (qabs x == Qabs x)%Q).
  { intros x. destruct (qabs_spec x) as [[H E]|[H E]]; rewrite E.
    - symmetry. apply Qabs_pos. exact H.
    - symmetry. apply Qabs_neg. lra. }
  split; [exact Hlt|]. split.
  - intros i Hi. specialize (H2 i _ (Hm i Hi)). cbn in H2. apply Qnot_lt_le in H2. rewrite !Habs in H2. exact H2.
  - intros i Hi. specialize (H3 i _ Hi (Hm i ltac:(lia))). cbn in H3. rewrite !Habs in H3. exact H3.
Qed.
Print Assumptions nearest_index_is_nearest.

(** an array of values is looked up value by value *)
Theorem nearest_indices_elementwise :
  forall a vs k v, nth_error vs k = Some v ->
    nth_error (nearest_indices a vs) k = Some (nearest_index a v) /\
    length (nearest_indices a vs) = length vs.
Proof.
  intros a vs k v H. unfold nearest_indices. rewrite nth_error_map, H, map_length. auto.
Qed.
Print Assumptions nearest_indices_elementwise.

Example nearest_nonvacuous :
  nearest_index [3;1;2]%Q (7 # 5) = 1%nat /\ nearest_index [0;1;2]%Q (1 # 2) = 0%nat /\
  nearest_indices [0;1;2]%Q [9; -4; 6#5]%Q = [2;0;1]%nat.
Proof. repeat split; vm_compute; reflexivity. Qed.

(** * Slices *)
Theorem tolerance_is_small :
  forall a, ascending a ->
    (0 <= tol a)%Q /\
    forall i, (S i < length a)%nat -> ((10000 # 1) * tol a <= qnth a (S i) - qnth a i)%Q.
Proof. intros a Ha. split; [apply tol_nonneg, ascending_nondesc, Ha|apply tol_small]. Qed.
Print Assumptions tolerance_is_small.

(** Specification of the bounds a slice asks for, on an array of length n.
    [lower]: indices at or after [lo] are admitted by the start bound. *)
Definition lower (a : list Q) (b : sbound) (lo : Z) : Prop :=
  let n := Z.of_nat (length a) in
  match b with
  | BNone => lo = 0
  | BIdx i => lo = adj n 0 n i                (* Python's own rule for indices *)
  | BVal v => 0 <= lo <= n /\
      forall i, (i < length a)%nat -> (lo <= Z.of_nat i <-> (v - tol a <= qnth a i)%Q)
  end.
(** [upper]: indices before [hi] are admitted by the stop bound; a value is
    included when [endp] *)
Definition upper (a : list Q) (endp : bool) (b : sbound) (hi : Z) : Prop :=
  let n := Z.of_nat (length a) in
  match b with
  | BNone => hi = n
  | BIdx i => hi = adj n 0 n i
  | BVal v => 0 <= hi <= n /\
      ((v < qnth a 0)%Q -> hi = 0) /\
      ((qnth a 0 <= v)%Q -> forall i, (i < length a)%nat ->
         ((if endp then Z.of_nat i < hi else Z.of_nat i <= hi) <-> (qnth a i <= v + tol a)%Q))
  end.

Lemma std_ne a start stop step val_endpoint interior : a <> [] ->
  std_sel2index a start stop step val_endpoint interior =
  let val_endpoint := if interior then true else val_endpoint in
  let ustep := match step with None => 1 | Some s => s end in
  match start_index a start ustep with
  | None => SSlice (PS (Some 0) (Some 0) (Some ustep))
  | Some ustart =>
      let ustop := stop_index a stop ustep val_endpoint in
      if interior then interiorize a (bval start) (bval stop) ustart ustop step
      else SSlice (PS ustart ustop step)
  end.
Proof. destruct a; [congruence|reflexivity]. Qed.
Lemma sel_fwd n s e step : 0 < odef step 1 ->
  sel n (PS s e step) =
  Some (prange (match s with None => 0 | Some x => adj n 0 n x end)
               (match e with None => n | Some x => adj n 0 n x end) (odef step 1)).
Proof.
  intros H. unfold sel, slice_start, slice_stop, step_of. cbn [p_start p_stop p_step].
  replace (odef step 1 =? 0) with false by lia. replace (0 <? odef step 1) with true by lia. reflexivity.
Qed.
Lemma adj_id n x : 0 <= x <= n -> adj n 0 n x = x.
Proof. intros. unfold adj. destruct (x <? 0) eqn:E; lia. Qed.

(** C09, forward slices: any mixture of values, indices and None in either bound
    selects exactly range(lo, hi, step), where lo and hi are what the bounds mean. *)
Theorem slice_by_value_forward :
  forall a b1 b2 step endp, ascending a -> a <> [] -> 0 < odef step 1 ->
    exists p lo hi, std_sel2index a b1 b2 step endp false = SSlice p /\
      lower a b1 lo /\ upper a endp b2 hi /\
      sel (Z.of_nat (length a)) p = Some (prange lo hi (odef step 1)).
Proof.
  intros a b1 b2 step endp Ha Hne Hst.
  assert (H1 : exists s, start_index a b1 (odef step 1) = Some s /\
     lower a b1 (match s with None => 0 | Some x => adj (zlen a) 0 (zlen a) x end)).
  { destruct b1 as [|i|v].
    - eexists. split; reflexivity.
    - eexists. split; reflexivity.
    - destruct (start_fwd a v (odef step 1) Hst Ha Hne) as (lo & E & Hlo & H). eexists. split; [exact E|].
      cbn [lower]. rewrite adj_id by lia. split; [lia|]. intros i Hi. rewrite <- (H i Hi). lia. }
  assert (H2 : upper a endp b2 (match stop_index a b2 (odef step 1) endp with None => zlen a | Some x => adj (zlen a) 0 (zlen a) x end)).
  { destruct b2 as [|i|v]; [reflexivity|reflexivity|].
    destruct (stop_fwd a v (odef step 1) endp Hst Ha Hne) as [[Hv E]|[Hv (j & Hj & E & H)]]; rewrite E; cbn [upper].
    - rewrite adj_id by lia. split; [lia|]. split; [reflexivity|]. intros. lra.
    - rewrite adj_id by (destruct endp; lia). split; [destruct endp; lia|]. split; [intros; lra|].
      intros _ i Hi. rewrite <- (H i Hi). destruct endp; lia. }
  destruct H1 as (s & E1 & H1). rewrite std_ne by exact Hne. cbv zeta.
  change (match step with Some s0 => s0 | None => 1 end) with (odef step 1). rewrite E1.
  eexists. eexists. eexists. split; [reflexivity|]. split; [exact H1|]. split; [exact H2|].
  apply sel_fwd. exact Hst.
Qed.
Print Assumptions slice_by_value_forward.

(** C09: bounds given by index (or None) are left exactly as they are, whatever
    the coordinates. *)
Theorem slice_by_index_untouched :
  forall (a : list Q) (b1 b2 : option Z) step endp,
    let bound b := match b with None => BNone | Some i => BIdx i end in
    std_sel2index a (bound b1) (bound b2) step endp false = SSlice (PS b1 b2 step).
Proof.
  intros a b1 b2 step endp bound. unfold std_sel2index, bound.
  destruct b1, b2; rewrite andb_false_r; reflexivity.
Qed.
Print Assumptions slice_by_index_untouched.

(** C09, the plain statement: a forward slice between two values picks exactly
    the in-range indices whose coordinates are between the values, up to the
    tolerance, in order. *)
Theorem slice_between_values :
  forall a v1 v2 step, ascending a -> a <> [] -> (step = None \/ step = Some 1) -> (qnth a 0 <= v2)%Q ->
    exists p is, std_sel2index a (BVal v1) (BVal v2) step true false = SSlice p /\
      sel (Z.of_nat (length a)) p = Some is /\
      (forall i : nat, In (Z.of_nat i) is <->
         (i < length a)%nat /\ (v1 - tol a <= qnth a i)%Q /\ (qnth a i <= v2 + tol a)%Q) /\
      exists lo k, is = prog lo 1 k.
Proof.
  intros a v1 v2 step Ha Hne Hs H0.
  assert (Hst : odef step 1 = 1) by (destruct Hs as [->| ->]; reflexivity).
  destruct (slice_by_value_forward a (BVal v1) (BVal v2) step true Ha Hne ltac:(lia)) as (p & lo & hi & E & Hl & Hu & Hsel).
  exists p. eexists. split; [exact E|]. split; [exact Hsel|]. rewrite Hst.
  cbn [lower upper] in Hl, Hu. destruct Hl as [Hl1 Hl2], Hu as (Hu1 & _ & Hu2). specialize (Hu2 H0). split.
  - intros i. unfold prange. rewrite prog_In. unfold range_len. change (0 <? 1) with true. cbv iota.
    split.
    + intros (k & Hk & Ei). assert (lo <= Z.of_nat i < hi).
      { destruct (lo <? hi) eqn:El; [|lia]. rewrite Z.div_1_r in Hk. lia. }
      assert (Hi : (i < length a)%nat) by lia. split; [exact Hi|].
      rewrite <- (Hl2 i Hi), <- (Hu2 i Hi). lia.
    + intros (Hi & H1 & H2). rewrite <- (Hl2 i Hi) in H1. rewrite <- (Hu2 i Hi) in H2.
      exists (Z.to_nat (Z.of_nat i - lo)). replace (lo <? hi) with true by lia. rewrite Z.div_1_r. lia.
  - eexists. eexists. reflexivity.
Qed.
Print Assumptions slice_between_values.

Example slice_between_values_nonvacuous :
  let a := [0; 1#2; 1; 3#2; 2]%Q in
  std_sel2index a (BVal (1#4)) (BVal (3#2)) None true false = SSlice (PS (Some 1) (Some 4) None) /\
  sel 5 (PS (Some 1) (Some 4) None) = Some [1;2;3] /\
  std_sel2index a (BVal (1#4)) (BVal (3#2)) None false false = SSlice (PS (Some 1) (Some 3) None) /\
  std_sel2index a (BIdx (-4)) (BVal 9) (Some 2) true false = SSlice (PS (Some (-4)) (Some 5) (Some 2)).
Proof. repeat split; vm_compute; reflexivity. Qed.

(** Backward slices.  [lower_rev]: indices at or before [hi] are admitted by the
    start bound; [upper_rev]: indices after [lo] are admitted by the stop bound. *)
Definition lower_rev (a : list Q) (b : sbound) (hi : Z) : Prop :=
  let n := Z.of_nat (length a) in
  match b with
  | BNone => hi = n - 1
  | BIdx i => hi = adj n (-1) (n - 1) i
  | BVal v => -1 <= hi < n /\
      forall i, (i < length a)%nat -> (Z.of_nat i <= hi <-> (qnth a i <= v + tol a)%Q)
  end.
Definition upper_rev (a : list Q) (endp : bool) (b : sbound) (lo : Z) : Prop :=
  let n := Z.of_nat (length a) in
  match b with
  | BNone => lo = -1
  | BIdx i => lo = adj n (-1) (n - 1) i
  | BVal v => -1 <= lo < n /\
      ((qnth a (length a - 1) < v)%Q -> lo = n - 1) /\
      ((v <= qnth a (length a - 1))%Q -> forall i, (i < length a)%nat ->
         ((if endp then lo < Z.of_nat i else lo <= Z.of_nat i) <-> (v - tol a <= qnth a i)%Q))
  end.

Lemma sel_rev n s e step : odef step 1 < 0 ->
  sel n (PS s e step) =
  Some (prange (match s with None => n - 1 | Some x => adj n (-1) (n - 1) x end)
               (match e with None => -1 | Some x => adj n (-1) (n - 1) x end) (odef step 1)).
Proof.
  intros H. unfold sel, slice_start, slice_stop, step_of. cbn [p_start p_stop p_step].
  replace (odef step 1 =? 0) with false by lia. replace (0 <? odef step 1) with false by lia. reflexivity.
Qed.
Lemma adj_id_rev n x : 0 <= x <= n - 1 -> adj n (-1) (n - 1) x = x.
Proof. intros. unfold adj. destruct (x <? 0) eqn:E; lia. Qed.
Lemma adj_bound_rev n x : 0 < n -> -1 <= adj n (-1) (n - 1) x < n.
Proof. intros. unfold adj. destruct (x <? 0) eqn:E; lia. Qed.

(** C09, backward slices. *)
Theorem slice_by_value_backward :
  forall a b1 b2 step endp, ascending a -> a <> [] -> step < 0 ->
    exists p lo hi, std_sel2index a b1 b2 (Some step) endp false = SSlice p /\
      lower_rev a b1 hi /\ upper_rev a endp b2 lo /\
      sel (Z.of_nat (length a)) p = Some (prange hi lo step).
Proof.
  intros a b1 b2 step endp Ha Hne Hst.
  assert (Hn : 0 < zlen a) by (destruct a; [congruence|cbn [length]; lia]).
  assert (H2 : upper_rev a endp b2 (match stop_index a b2 step endp with None => -1 | Some x => adj (zlen a) (-1) (zlen a - 1) x end)).
  { destruct b2 as [|i|v]; [reflexivity|reflexivity|].
    destruct (stop_rev a v step endp Hst Ha Hne) as [[Hv E]|[Hv (j & Hj & E & H)]]; rewrite E; cbn [upper_rev].
    - assert (Ead : adj (zlen a) (-1) (zlen a - 1) (zlen a) = zlen a - 1) by (unfold adj; destruct (zlen a <? 0) eqn:Ez; lia).
      rewrite Ead. split; [lia|]. split; [reflexivity|]. intros. lra.
    - destruct endp.
      + destruct (0 <? Z.of_nat j) eqn:Ej.
        * rewrite adj_id_rev by lia. split; [lia|]. split; [intros; lra|]. intros _ i Hi. rewrite <- (H i Hi). lia.
        * split; [lia|]. split; [intros; lra|]. intros _ i Hi. rewrite <- (H i Hi). lia.
      + rewrite adj_id_rev by lia. split; [lia|]. split; [intros; lra|]. intros _ i Hi. rewrite <- (H i Hi). lia. }
  assert (Hlo : -1 <= match stop_index a b2 step endp with None => -1 | Some x => adj (zlen a) (-1) (zlen a - 1) x end).
  { destruct (stop_index a b2 step endp) as [x|]; [|lia]. pose proof (adj_bound_rev (zlen a) x Hn). lia. }
  assert (Hcase : forall s, start_index a b1 step = Some s ->
     lower_rev a b1 (match s with None => zlen a - 1 | Some x => adj (zlen a) (-1) (zlen a - 1) x end) ->
     exists p lo hi, std_sel2index a b1 b2 (Some step) endp false = SSlice p /\
      lower_rev a b1 hi /\ upper_rev a endp b2 lo /\ sel (zlen a) p = Some (prange hi lo step)).
  { intros s E1 H1. rewrite std_ne by exact Hne. cbv zeta. rewrite E1.
    eexists. eexists. eexists. split; [reflexivity|]. split; [exact H1|]. split; [exact H2|].
    apply (sel_rev (zlen a) s (stop_index a b2 step endp) (Some step)). exact Hst. }
  destruct b1 as [|i|v].
  - apply (Hcase None); reflexivity.
  - apply (Hcase (Some i)); reflexivity.
  - destruct (start_rev a v step Hst Ha Hne) as [[E H]|(j & E & Hj & H)].
    + rewrite std_ne by exact Hne. cbv zeta. rewrite E.
      eexists. exists (match stop_index a b2 step endp with None => -1 | Some x => adj (zlen a) (-1) (zlen a - 1) x end), (-1).
      split; [reflexivity|]. split.
      { cbn [lower_rev]. split; [lia|]. intros i Hi. specialize (H i Hi). split; [lia|]. intros. lra. }
      split; [exact H2|].
      rewrite (sel_rev (zlen a) (Some 0) (Some 0) (Some step)) by exact Hst. cbn [odef]. f_equal.
      unfold prange, range_len. replace (0 <? step) with false by lia. rewrite Z.ltb_irrefl.
      rewrite (proj2 (Z.ltb_ge _ (-1))) by lia. reflexivity.
    + apply (Hcase (Some (Z.of_nat j)) E). rewrite adj_id_rev by lia. cbn [lower_rev].
      split; [lia|]. intros i Hi. rewrite <- (H i Hi). lia.
Qed.
Print Assumptions slice_by_value_backward.

Example slice_backward_nonvacuous :
  let a := [0; 1#2; 1; 3#2; 2]%Q in
  std_sel2index a (BVal (7#4)) (BVal (1#2)) (Some (-1)) true false = SSlice (PS (Some 3) (Some 0) (Some (-1))) /\
  sel 5 (PS (Some 3) (Some 0) (Some (-1))) = Some [3;2;1] /\
  std_sel2index a (BVal (7#4)) (BVal 0) (Some (-2)) true false = SSlice (PS (Some 3) None (Some (-2))).
Proof. repeat split; vm_compute; reflexivity. Qed.

(** * Interior slices *)
Lemma qnth_getitem a i : (i < length a)%nat -> getitem a (Z.of_nat i) = Some (qnth a i).
Proof.
  intros Hi. unfold getitem, zget. replace (Z.of_nat i <? 0) with false by lia. rewrite Nat2Z.id.
  unfold qnth. apply nth_error_nth'. exact Hi.
Qed.
Lemma getslice_ends a p lo d k :
  sel (zlen a) p = Some (prog lo d (S k)) -> exists x sub, getslice a p = Some (x :: sub) /\
    x = qnth a (Z.to_nat lo) /\ last (x :: sub) x = qnth a (Z.to_nat (lo + Z.of_nat k * d)).
Proof.
  intros Hs. pose proof (sel_in_range (zlen a) p _ ltac:(lia) Hs) as Hr.
  unfold getslice. rewrite Hs.
  assert (Hz : forall i, 0 <= i < zlen a -> pick a i = [qnth a (Z.to_nat i)]).
  { intros i Hi. unfold pick, zget. replace (i <? 0) with false by lia. unfold qnth.
    rewrite (nth_error_nth' a 0%Q) by lia. reflexivity. }
  assert (Hlo : 0 <= lo < zlen a) by (apply Hr; rewrite prog_S; now left).
  exists (qnth a (Z.to_nat lo)). exists (picks a (prog (lo + d) d k)). split.
  - rewrite prog_S. cbn [picks flat_map]. rewrite Hz by exact Hlo. reflexivity.
  - split; [reflexivity|].
    assert (Hsn : qnth a (Z.to_nat lo) :: picks a (prog (lo + d) d k) = picks a (prog lo d k) ++ [qnth a (Z.to_nat (lo + Z.of_nat k * d))]).
    { transitivity (picks a (prog lo d (S k))).
      - rewrite prog_S. cbn [picks flat_map]. rewrite Hz by exact Hlo. reflexivity.
      - rewrite prog_snoc, picks_app. f_equal. cbn [picks flat_map]. rewrite app_nil_r. apply Hz.
        apply Hr. rewrite prog_snoc. apply in_or_app. right. now left. }
    rewrite Hsn. apply last_last.
Qed.

(** C09, interior slices with unit step: for values inside the array the call
    succeeds, starts at the last coordinate that is at most v1 and stops after the
    first coordinate that is at least v2: the tightest slice enclosing both. *)
Theorem interior_slice_encloses_tightly :
  forall a v1 v2 step endp, ascending a -> (2 <= length a)%nat -> (step = None \/ step = Some 1) ->
    (qnth a 0 <= v1)%Q -> (v1 <= v2)%Q -> (v2 <= qnth a (length a - 1))%Q ->
    exists p (lo hi : nat), std_sel2index a (BVal v1) (BVal v2) step endp true = SSlice p /\
      (lo <= hi < length a)%nat /\
      sel (Z.of_nat (length a)) p = Some (prange (Z.of_nat lo) (Z.of_nat hi + 1) 1) /\
      (qnth a lo <= v1)%Q /\ (v2 <= qnth a hi)%Q /\
      (forall i, (i < length a)%nat -> (qnth a i <= v1)%Q -> (i <= lo)%nat) /\
      (forall i, (i < length a)%nat -> (v2 <= qnth a i)%Q -> (hi <= i)%nat).
Proof.
  intros a v1 v2 step endp Ha Hlen Hs H0 H12 Hl.
  assert (Hne : a <> []) by (intros ->; cbn in Hlen; lia).
  assert (Hst : odef step 1 = 1) by (destruct Hs as [->| ->]; reflexivity).
  assert (Hsp : match step with Some s => s | None => 1 end = 1) by exact Hst.
  pose proof (tol_nonneg a (ascending_nondesc a Ha)) as Ht0.
  assert (Htp : (0 < tol a)%Q).
  { unfold tol. destruct (diffs a) as [|d ds] eqn:Ed; [lra|].
    assert (Hin : forall x, In x (diffs a) -> (0 < x)%Q).
    { clear - Ha. induction a as [|x [|y r] IH]; intros z Hz; cbn in Hz; try contradiction.
      destruct Hz as [<-|Hz].
      - pose proof (Ha 0%nat 1%nat ltac:(cbn; lia)) as Hxy. unfold qnth in Hxy. cbn in Hxy. lra.
      - apply IH; [|exact Hz]. intros i j Hij. apply (Ha (S i) (S j)). cbn in *. lia. }
    rewrite Ed in Hin.
    assert (Hf : forall ds d, (0 < d)%Q -> (forall x, In x ds -> (0 < x)%Q) -> (0 < fold_left qmin ds d)%Q).
    { clear. induction ds as [|y ds IH]; intros d Hd H; [exact Hd|]. cbn [fold_left]. apply IH.
      - unfold qmin. destruct (Qle_bool d y); [exact Hd|apply H; now left].
      - intros x Hx. apply H. now right. }
    specialize (Hf ds d (Hin d (or_introl eq_refl)) (fun x Hx => Hin x (or_intror Hx))). lra. }
  destruct (start_fwd a v1 1 ltac:(lia) Ha Hne) as (s & Es & Hsn & Hs').
  destruct (stop_fwd a v2 1 true ltac:(lia) Ha Hne) as [[Hv E]|[Hv (j & Hj & Ej & Hj')]]; [lra|].
  assert (Hmon := ascending_nondesc a Ha).
  assert (Hs2 : (s < length a)%nat).
  { destruct (lt_dec s (length a)) as [|Hge]; [assumption|].
    assert (Hlast : (length a - 1 < length a)%nat) by lia.
    pose proof (proj2 (Hs' (length a - 1)%nat Hlast) ltac:(lra)). lia. }
  (* the adjusted start *)
  set (lo := if Qle_bool (qnth a s) v1 then s else (s - 1)%nat).
  assert (Hlo : (qnth a lo <= v1)%Q /\ (lo < length a)%nat /\ (forall i, (i < length a)%nat -> (qnth a i <= v1)%Q -> (i <= lo)%nat)
                /\ (Qle_bool (qnth a s) v1 = false -> (0 < s)%nat)).
  { unfold lo. destruct (Qle_bool (qnth a s) v1) eqn:Ev.
    - apply Qle_bool_iff in Ev. split; [exact Ev|]. split; [exact Hs2|]. split; [|discriminate].
      intros i Hi Hiv. destruct (le_lt_dec i s) as [|Hlt]; [assumption|exfalso].
      pose proof (tol_small a s ltac:(lia)) as Hts.
      pose proof (Hmon (S s) i ltac:(lia)).
      pose proof (proj1 (Hs' s Hs2) ltac:(lia)). lra.
    - apply Qle_bool_false in Ev. assert (Hs0 : (0 < s)%nat).
      { destruct s; [lra|lia]. }
      split; [|split; [lia|split; [|intros _; exact Hs0]]].
      + assert (Hn : ~ (v1 - tol a <= qnth a (s - 1))%Q).
        { intros Hc. apply (Hs' (s - 1)%nat ltac:(lia)) in Hc. lia. }
        lra.
      + intros i Hi Hiv. destruct (le_lt_dec i (s - 1)) as [|Hlt]; [assumption|exfalso].
        pose proof (Hmon s i ltac:(lia)). lra. }
  destruct Hlo as (Hlo1 & Hlo2 & Hlo3 & Hs0).
  set (hi := if Qle_bool v2 (qnth a j) then j else S j).
  assert (Hhi : (v2 <= qnth a hi)%Q /\ (hi < length a)%nat /\ (forall i, (i < length a)%nat -> (v2 <= qnth a i)%Q -> (hi <= i)%nat)).
  { unfold hi. destruct (Qle_bool v2 (qnth a j)) eqn:Ev.
    - apply Qle_bool_iff in Ev. split; [exact Ev|]. split; [exact Hj|].
      intros i Hi Hiv. destruct (le_lt_dec j i) as [|Hlt]; [assumption|exfalso].
      destruct j as [|j']; [lia|].
      pose proof (tol_small a j' ltac:(lia)) as Hts.
      pose proof (Hmon i j' ltac:(lia)).
      pose proof (proj1 (Hj' (S j') Hj) ltac:(lia)). lra.
    - apply Qle_bool_false in Ev.
      assert (Hj1 : (S j < length a)%nat).
      { destruct (lt_dec (S j) (length a)) as [|Hge]; [assumption|].
        replace (length a - 1)%nat with j in Hl by lia. lra. }
      split; [|split; [exact Hj1|]].
      + assert (Hn : ~ (qnth a (S j) <= v2 + tol a)%Q).
        { intros Hc. apply (Hj' (S j) Hj1) in Hc. lia. }
        lra.
      + intros i Hi Hiv. destruct (le_lt_dec (S j) i) as [|Hlt]; [assumption|exfalso].
        pose proof (Hmon i j ltac:(lia)). lra. }
  destruct Hhi as (Hhi1 & Hhi2 & Hhi3).
  assert (Hlh : (lo <= hi)%nat).
  { destruct (le_lt_dec lo hi) as [|Hlt]; [assumption|exfalso]. pose proof (Ha hi lo ltac:(lia)). lra. }
  assert (Hsel : sel (zlen a) (PS (Some (Z.of_nat lo)) (Some (Z.of_nat hi + 1)) (Some 1)) = Some (prange (Z.of_nat lo) (Z.of_nat hi + 1) 1)).
  { rewrite (sel_fwd (zlen a) (Some (Z.of_nat lo)) (Some (Z.of_nat hi + 1)) (Some 1)) by (cbn; lia).
    rewrite !adj_id by lia. reflexivity. }
  assert (Hpr : prange (Z.of_nat lo) (Z.of_nat hi + 1) 1 = prog (Z.of_nat lo) 1 (S (hi - lo))).
  { unfold prange, range_len. change (0 <? 1) with true. cbv iota. replace (Z.of_nat lo <? Z.of_nat hi + 1) with true by lia.
    rewrite Z.div_1_r. f_equal. lia. }
  exists (PS (Some (Z.of_nat lo)) (Some (Z.of_nat hi + 1)) (Some 1)), lo, hi.
  split; [|split; [lia|split; [exact Hsel|auto]]].
  rewrite std_ne by exact Hne. cbv zeta.
  rewrite Hsp, Es, Ej. unfold interiorize. cbn [bval]. cbv zeta. rewrite Hsp.
  change (0 <? 1) with true. change (1 <? 0) with false. cbn [andb].
  rewrite qnth_getitem by exact Hs2.
  assert (Estart : (if negb (Qle_bool (qnth a s) v1) then Some (if Z.of_nat s =? 0 then None else Some (Z.of_nat s - 1)) else Some (Some (Z.of_nat s)))
     = Some (Some (Z.of_nat lo))).
  { unfold lo. destruct (Qle_bool (qnth a s) v1) eqn:Ev; cbn [negb]; [reflexivity|].
    specialize (Hs0 eq_refl). replace (Z.of_nat s =? 0) with false by lia. do 2 f_equal. lia. }
  rewrite Estart.
  replace (Z.of_nat j + 1 =? 0) with false by lia. replace (Z.of_nat j + 1 - 1) with (Z.of_nat j) by lia.
  rewrite qnth_getitem by exact Hj.
  assert (Estop : (if negb (Qle_bool v2 (qnth a j)) then Some (if Z.of_nat j + 1 =? -1 then None else Some (Z.of_nat j + 1 + 1)) else Some (Some (Z.of_nat j + 1)))
     = Some (Some (Z.of_nat hi + 1))).
  { unfold hi. destruct (Qle_bool v2 (qnth a j)) eqn:Ev; cbn [negb]; [reflexivity|].
    replace (Z.of_nat j + 1 =? -1) with false by lia. do 2 f_equal. lia. }
  rewrite Estop. rewrite Hpr in Hsel.
  destruct (getslice_ends a _ _ _ _ Hsel) as (x & sub & Eg & Ex & El). rewrite Eg.
  rewrite El. rewrite Nat2Z.id in Ex.
  replace (Z.to_nat (Z.of_nat lo + Z.of_nat (hi - lo) * 1)) with hi by lia. subst x.
  pose proof (Hmon lo hi ltac:(lia)) as Hle.
  rewrite (proj2 (Qle_bool_iff _ _) Hle).
  rewrite (proj2 (Qle_bool_iff (qnth a lo) v1)) by lra. rewrite (proj2 (Qle_bool_iff v1 (qnth a hi))) by lra.
  rewrite (proj2 (Qle_bool_iff (qnth a lo) v2)) by lra. rewrite (proj2 (Qle_bool_iff v2 (qnth a hi))) by lra.
  reflexivity.
Qed.
Print Assumptions interior_slice_encloses_tightly.

Example interior_nonvacuous :
  std_sel2index [0; 1#2; 1; 3#2; 2]%Q (BVal (3#4)) (BVal (5#4)) None true true = SSlice (PS (Some 1) (Some 4) (Some 1)).
Proof. vm_compute. reflexivity. Qed.

(** * Where the property fails *)

(** Descending coordinates: asking for 0.5 .. 2.5 of [3;2;1;0] selects
    nothing, although 2 and 1 are in between. *)
Theorem slice_by_value_descending_refuted :
  exists a v1 v2 p, (forall i j, (i < j < length a)%nat -> (qnth a j < qnth a i)%Q) /\
    std_sel2index a (BVal v1) (BVal v2) None true false = SSlice p /\
    sel (Z.of_nat (length a)) p = Some [] /\
    (v1 < qnth a 1 /\ qnth a 1 < v2)%Q.
Proof.
  exists [3;2;1;0]%Q, (1#2)%Q, (5#2)%Q. eexists.
  split; [|split; [vm_compute; reflexivity|split; [vm_compute; reflexivity|vm_compute; auto]]].
  intros i j [H1 H2]. cbn [length] in H2.
  destruct i as [|[|[|[|i]]]], j as [|[|[|[|j]]]]; try lia; vm_compute; reflexivity.
Qed.
Print Assumptions slice_by_value_descending_refuted.

(** Repeated coordinates: every coordinate equal to the stop but the first of
    them is left out, although the stop is inclusive. *)
Theorem slice_by_value_duplicates_refuted :
  exists a v1 v2 p, nondescending a /\
    std_sel2index a (BVal v1) (BVal v2) None true false = SSlice p /\
    sel (Z.of_nat (length a)) p = Some [0;1] /\ (qnth a 2 == v2)%Q /\ (length a = 3)%nat.
Proof.
  exists [0;1;1]%Q, 0%Q, 1%Q. eexists.
  split; [|split; [vm_compute; reflexivity|split; [vm_compute; reflexivity|split; vm_compute; reflexivity]]].
  intros i j [H1 H2]. cbn [length] in H2.
  destruct i as [|[|[|i]]], j as [|[|[|j]]]; try lia; vm_compute; discriminate.
Qed.
Print Assumptions slice_by_value_duplicates_refuted.

(** An interior slice with a step greater than one raises RuntimeError although
    both values are inside the array. *)
Theorem interior_slice_step_refuted :
  exists a v1 v2 step, ascending a /\ (qnth a 0 <= v1)%Q /\ (v1 <= v2)%Q /\ (v2 <= qnth a (length a - 1))%Q /\
    0 < step /\ std_sel2index a (BVal v1) (BVal v2) (Some step) true true = SRuntimeError.
Proof.
  exists [0;1;2;3;4]%Q, (1#2)%Q, (7#2)%Q, 3.
  split; [|split; [vm_compute; discriminate|split; [vm_compute; discriminate|split; [vm_compute; discriminate|split; [lia|vm_compute; reflexivity]]]]].
  intros i j [H1 H2]. cbn [length] in H2.
  destruct i as [|[|[|[|[|i]]]]], j as [|[|[|[|[|j]]]]]; try lia; vm_compute; reflexivity.
Qed.
Print Assumptions interior_slice_step_refuted.

(** On an axis with one point the tolerance is 1, so a slice that starts up to
    1 above the point still selects it. *)
Theorem slice_by_value_single_point_refuted :
  exists a v1 v2 p, (length a = 1)%nat /\ (qnth a 0 < v1)%Q /\
    std_sel2index a (BVal v1) (BVal v2) None true false = SSlice p /\ sel 1 p = Some [0].
Proof.
  exists [0]%Q, (9#10)%Q, 2%Q. eexists. split; [reflexivity|]. split; [vm_compute; reflexivity|].
  split; vm_compute; reflexivity.
Qed.
Print Assumptions slice_by_value_single_point_refuted.
