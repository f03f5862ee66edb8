(** C18: which AMR patch a point is looked up in, and who a patch's neighbours are. *)
From Coq Require Import List Arith ZArith QArith Qround Qabs Bool Lia Lqa ZifyBool ZifyNat Sorted.
From Verif Require Import StreamModel StreamProofs InterpModel InterpSpec InterpProofs AmrProofs InterpProps.
Import ListNotations.
Local Open Scope Q_scope.

(** ** Looking up points *)

(** The active patch after looking up the points of [hist] in turn, starting from
    patch 0. *)
Definition active_after (ps : list patch) (nbs : list (list nat)) (hist : list pt) : nat :=
  fold_left (activate_patch ps nbs) hist 0%nat.

Lemma active_after_lt ps nbs hist :
  ps <> [] ->
  (forall x p, In x hist -> In p ps -> centre_dist2 x p < MAX_FLOAT) ->
  (active_after ps nbs hist < length ps)%nat.
Proof.
  intros Hne Hfar. unfold active_after.
  assert (H0 : (0 < length ps)%nat) by (destruct ps; [congruence|cbn; lia]).
  revert H0 Hfar. generalize 0%nat at 1 2. induction hist as [|x hist IH]; intros a Ha Hfar; cbn [fold_left]; auto.
  apply IH.
  - apply (chosen_lt ps x). apply activate_chosen; auto. intros _ p Hp. apply Hfar; auto. left; auto.
  - intros y p Hy Hp. apply Hfar; auto. right; auto.
Qed.

(** Whatever was looked up before: if some patch holds the point, the patch used
    holds the point; if none does, no patch has a nearer centre. *)
Theorem amr_lookup_uses_a_patch_holding_the_point :
  forall ps nbs hist x,
  ps <> [] ->
  (forall y p, In y (x :: hist) -> In p ps -> centre_dist2 y p < MAX_FLOAT) ->
  exists p,
    nth_error ps (activate_patch ps nbs (active_after ps nbs hist) x) = Some p /\
    ((exists q, In q ps /\ inside q x) -> inside p x) /\
    ((forall q, In q ps -> ~ inside q x) ->
     forall q, In q ps -> centre_dist2 x p <= centre_dist2 x q).
Proof.
  intros ps nbs hist x Hne Hfar.
  pose proof (active_after_lt ps nbs hist Hne
                (fun y p Hy Hp => Hfar y p (or_intror Hy) Hp)) as Ha.
  destruct (activate_chosen ps nbs (active_after ps nbs hist) x Ha
              (fun _ p Hp => Hfar x p (or_introl eq_refl) Hp)) as (p & Hp & H1 & H2).
  exists p. split; [exact Hp|]. split.
  - intros (q & Hq & Hi). apply H1. apply In_nth_error in Hq as (i & Hi'). eauto.
  - intros Hno q Hq. apply In_nth_error in Hq as (i & Hi'). eapply H2; eauto.
    intros (i2 & q2 & E & Hin). apply (Hno q2); auto. eapply nth_error_In; eauto.
Qed.

(** Interpolating on an AMR grid whose patches have buffers of one width never
    fails, and every value is the value on a patch holding the point. *)
Theorem amr_interpolation_uses_a_patch_holding_the_point :
  forall K ps nbs nc xs,
  (K = interp_trilin1 \/ K = interp_nearest1) -> ps <> [] ->
  (forall p, In p ps -> prepared (p_fld p)) ->
  (forall p q, In p ps -> In q ps -> smax (p_fld p) = smax (p_fld q)) ->
  (forall x p, In x xs -> In p ps -> centre_dist2 x p < MAX_FLOAT) ->
  exists rs, interp K ps nbs nc xs = Some rs /\
    Forall2 (fun x vs => Forall2 (fun m v => exists p, In p ps /\
       ((exists q, In q ps /\ inside q x) -> inside p x) /\
       ((forall q, In q ps -> ~ inside q x) ->
         forall q, In q ps -> centre_dist2 x p <= centre_dist2 x q) /\
       result K (p_fld p) (S m) [x] 0 x m v) (seq 0 nc) vs) xs rs.
Proof.
  intros K ps nbs nc xs HKs Hne HP HS Hfar.
  assert (HK : steady K) by (destruct HKs as [->| ->]; [apply trilin1_steady|apply nearest1_steady]).
  assert (H0 : (0 < length ps)%nat) by (destruct ps; [congruence|cbn; lia]).
  destruct (interp_points_spec K ps nbs HK HP HS nc xs 0 cache0 (fun _ => Hfar) H0)
    as (rs & E & H); [intros p Hp; apply cache0_ok, HP, Hp|].
  exists rs. split; [exact E|]. clear E Hfar.
  induction H as [|x vs xs rs Hx H IH]; constructor; auto.
  unfold row_of in Hx. clear IH H. induction Hx as [|m v ms vs Hm Hx IH]; constructor; auto.
  destruct Hm as (j & p & (p' & Hp' & C1 & C2) & Hp & Hv).
  assert (p' = p) by congruence. subst p'. pose proof (nth_error_In _ _ Hp) as Hin.
  exists p. split; [exact Hin|]. split; [|split].
  - intros (q & Hq & Hi). apply C1. apply In_nth_error in Hq as (i & Hi'). eauto.
  - intros Hno q Hq. apply In_nth_error in Hq as (i & Hi'). eapply C2; eauto.
    intros (i2 & q2 & E & Hi). apply (Hno q2); auto. eapply nth_error_In; eauto.
  - apply value_result; auto.
Qed.

(** A point held by one patch only gets that patch's value, whatever the other
    points are. *)
Theorem amr_interpolation_independent_of_history_where_patches_do_not_overlap :
  forall K ps nbs nc xs rs a x p vs m v,
  (K = interp_trilin1 \/ K = interp_nearest1) ->
  (forall p, In p ps -> prepared (p_fld p)) ->
  (forall p q, In p ps -> In q ps -> smax (p_fld p) = smax (p_fld q)) ->
  (forall x p, In x xs -> In p ps -> centre_dist2 x p < MAX_FLOAT) ->
  interp K ps nbs nc xs = Some rs ->
  nth_error xs a = Some x -> nth_error rs a = Some vs -> nth_error vs m = Some v ->
  In p ps -> inside p x -> (forall q, In q ps -> inside q x -> q = p) ->
  result K (p_fld p) nc [x] 0 x m v.
Proof.
  intros K ps nbs nc xs rs a x p vs m v HKs HP HS Hfar E Hx Hvs Hv Hp Hin Huniq.
  assert (HK : steady K) by (destruct HKs as [->| ->]; [apply trilin1_steady|apply nearest1_steady]).
  assert (Hne : ps <> []) by (destruct ps; [destruct Hp|congruence]).
  destruct (amr_interpolation_uses_a_patch_holding_the_point K ps nbs nc xs HKs Hne HP HS Hfar)
    as (rs' & E' & H).
  assert (rs' = rs) by congruence. subst rs'.
  destruct (Forall2_nth _ _ _ _ _ H Hvs) as (x' & Hx' & Hrow).
  assert (x' = x) by congruence. subst x'.
  destruct (Forall2_nth _ _ _ _ _ Hrow Hv) as (m' & Hm' & q & Hq & C1 & _ & R).
  apply nth_error_seq0 in Hm' as [-> Hlt].
  assert (q = p) by (apply Huniq; auto; apply C1; eauto). subst q.
  destruct (result_value _ _ _ _ _ _ _ _ HK (HP p Hp) R) as [V _].
  apply value_result; auto.
Qed.

(** ** Neighbours *)

Lemma gap_model p q k :
  Qabs (p_xm p k - p_xm q k) - (1 # 2) * (p_L p k + p_L q k) == gap p q k.
Proof.
  unfold gap, p_xm, p_L.
  assert (E : (1 # 2) * (co (p_xl p) k + co (p_xh p) k) - (1 # 2) * (co (p_xl q) k + co (p_xh q) k)
     == (co (p_xl p) k + co (p_xh p) k) * (1 # 2) - (co (p_xl q) k + co (p_xh q) k) * (1 # 2)) by ring.
  rewrite E. ring.
Qed.

Lemma possible_iff p q :
  possible_neighbor p q = true <->
  forall k, (k < 3)%nat -> gap p q k <= 0 \/ Qabs (gap p q k) <= tol (half_len p q k).
Proof.
  assert (P1 : forall k, less_close (Qabs (p_xm p k - p_xm q k)) ((1 # 2) * (p_L p k + p_L q k)) = true
     <-> (gap p q k <= 0 \/ Qabs (gap p q k) <= tol (half_len p q k))).
  { intros k. unfold less_close. rewrite orb_true_iff, Qle_bool_iff, isclose_true.
    pose proof (gap_model p q k) as G. rewrite G.
    assert (T : (1 # 2) * (p_L p k + p_L q k) == half_len p q k) by (unfold p_L, half_len; ring).
    assert (T' : tol ((1 # 2) * (p_L p k + p_L q k)) == tol (half_len p q k))
      by (unfold tol; rewrite T; reflexivity).
    rewrite T'. split; intros [H|H]; [left|right|left|right]; try lra; exact H. }
  unfold possible_neighbor. rewrite forallb_forall. split.
  - intros H k Hk. apply P1. apply H. cbn [In]. lia.
  - intros H k Hk. apply P1. apply H. cbn [In] in Hk. lia.
Qed.

Lemma gap_sym p q k : gap p q k == gap q p k.
Proof.
  unfold gap. rewrite Qabs_Qminus. ring.
Qed.
Lemma half_len_sym p q k : half_len p q k == half_len q p k.
Proof. unfold half_len. ring. Qed.
Lemma touching_sym p q : touching p q -> touching q p.
Proof.
  intros [H1 (k & Hk & H2)]. split.
  - intros k' Hk'. assert (T : tol (half_len q p k') == tol (half_len p q k'))
      by (unfold tol; rewrite half_len_sym; reflexivity).
    rewrite T, gap_sym. apply H1; auto.
  - exists k. split; auto. unfold touch_on in *. rewrite gap_sym. exact H2.
Qed.

(** What the two masks of a pair say. *)
Definition centre (p : patch) (k : nat) : Q := (co (p_xl p) k + co (p_xh p) k) * (1 # 2).

Definition pm (t s : bool) (k : Z) (acc : Z * Z) : Z * Z :=
  if t then
    let '(ff, fi) := if s then (1, 2)%Z else (2, 1)%Z in
    (Z.lor (Z.lor (fst acc) (Z.shiftl 1 (6 + k))) (Z.shiftl ff (2 * k)),
     Z.lor (Z.lor (snd acc) (Z.shiftl 1 (6 + k))) (Z.shiftl fi (2 * k)))
  else acc.
Lemma pm_bits (t0 t1 t2 s0 s1 s2 : bool) :
  let r := pm t2 s2 2 (pm t1 s1 1 (pm t0 s0 0 (0, 0)%Z)) in
  let bits k (t s : bool) :=
    Z.testbit (fst r) (6 + k) = t /\ Z.testbit (snd r) (6 + k) = t /\
    Z.testbit (fst r) (2 * k) = (t && s)%bool /\
    Z.testbit (fst r) (2 * k + 1) = (t && negb s)%bool /\
    Z.testbit (snd r) (2 * k) = (t && negb s)%bool /\
    Z.testbit (snd r) (2 * k + 1) = (t && s)%bool in
  bits 0%Z t0 s0 /\ bits 1%Z t1 s1 /\ bits 2%Z t2 s2 /\
  ((fst r =? 0)%Z = negb (t0 || t1 || t2)) /\ ((snd r =? 0)%Z = negb (t0 || t1 || t2)).
Proof.
  destruct t0, t1, t2, s0, s1, s2; vm_compute; repeat split.
Qed.

Definition tb (p q : patch) (k : nat) : bool :=
  isclose (Qabs (p_xm p k - p_xm q k) - (1 # 2) * (p_L p k + p_L q k)) 0.
Definition sb (p q : patch) (k : nat) : bool := Qle_bool 0 (p_xm p k - p_xm q k).
Lemma mask_step_pm p q acc k :
  mask_step p q acc k = pm (tb p q k) (sb p q k) (Z.of_nat k) acc.
Proof. reflexivity. Qed.

Lemma masks_bits p q :
  let fm := fst (masks p q) in let im := snd (masks p q) in
  let t k := (possible_neighbor p q && tb p q k)%bool in
  (forall k, (k < 3)%nat ->
    Z.testbit fm (6 + Z.of_nat k) = t k /\ Z.testbit im (6 + Z.of_nat k) = t k /\
    Z.testbit fm (2 * Z.of_nat k) = (t k && sb p q k)%bool /\
    Z.testbit fm (2 * Z.of_nat k + 1) = (t k && negb (sb p q k))%bool /\
    Z.testbit im (2 * Z.of_nat k) = (t k && negb (sb p q k))%bool /\
    Z.testbit im (2 * Z.of_nat k + 1) = (t k && sb p q k)%bool) /\
  ((fm =? 0)%Z = negb (t 0%nat || t 1%nat || t 2%nat)) /\
  ((im =? 0)%Z = negb (t 0%nat || t 1%nat || t 2%nat)).
Proof.
  cbv zeta. unfold masks. destruct (possible_neighbor p q); cbn [andb].
  2:{ split; [|split; reflexivity]. intros k Hk. cbn [fst snd]. rewrite !Z.testbit_0_l. repeat split. }
  cbn [fold_left]. rewrite !mask_step_pm.
  pose proof (pm_bits (tb p q 0) (tb p q 1) (tb p q 2) (sb p q 0) (sb p q 1) (sb p q 2)) as H.
  cbv zeta in H. change (Z.of_nat 0) with 0%Z. change (Z.of_nat 1) with 1%Z.
  change (Z.of_nat 2) with 2%Z. destruct H as (H0 & H1 & H2 & H3 & H4).
  split; [|split; [exact H3|exact H4]]. clear H3 H4.
  intros k Hk. destruct k as [|[|[|k]]]; [clear H1 H2|clear H0 H2|clear H0 H1|clear H0 H1 H2; lia].
  - change (Z.of_nat 0) with 0%Z. exact H0.
  - change (Z.of_nat 1) with 1%Z. exact H1.
  - change (Z.of_nat 2) with 2%Z. exact H2.
Qed.

Lemma touch_isclose p q k :
  tb p q k = true <-> touch_on p q k.
Proof.
  unfold tb.   rewrite isclose_true. unfold touch_on, tol. rewrite gap_model.
  change (Qabs 0) with 0.
  assert (E : gap p q k - 0 == gap p q k) by ring. rewrite E.
  split; intros H; lra.
Qed.

Lemma masks_touching p q : (fst (masks p q) =? 0)%Z = false <-> touching p q.
Proof.
  pose proof (masks_bits p q) as (_ & H & _). rewrite H, negb_false_iff, !orb_true_iff, !andb_true_iff.
  rewrite possible_iff, !touch_isclose. unfold touching. split.
  - intros [[[A B]|[A B]]|[A B]]; (split; [exact A|]);
      [exists 0%nat|exists 1%nat|exists 2%nat]; (split; [lia|exact B]).
  - intros [A (k & Hk & B)]. destruct k as [|[|[|k]]]; [| | |lia]; auto.
Qed.

(** contribution of one processed pair to row [i] *)
Definition contrib (ps : list patch) (i : nat) (ab : nat * nat) : row :=
  match nth_error ps (fst ab), nth_error ps (snd ab) with
  | Some p, Some q =>
      if (fst (masks p q) =? 0)%Z then []
      else if (fst ab =? i)%nat then [(snd ab, fst (masks p q))]
      else if (snd ab =? i)%nat then [(fst ab, snd (masks p q))]
      else []
  | _, _ => []
  end.

Lemma append_row_spec rows i e rows' :
  append_row rows i e = Some rows' ->
  length rows' = length rows /\
  forall j, nth j rows' [] = if (j =? i)%nat then nth j rows [] ++ [e] else nth j rows [].
Proof.
  unfold append_row. destruct (nth_error rows i) as [r|] eqn:E; [|discriminate].
  destruct (length r <? max_neighbors)%nat; [|discriminate]. intros HH.
  assert (Hr : firstn i rows ++ (r ++ [e]) :: skipn (S i) rows = rows') by congruence.
  subst rows'. clear HH.
  assert (Hi : (i < length rows)%nat) by (apply nth_error_Some; congruence).
  pose proof (firstn_length_le rows (Nat.lt_le_incl _ _ Hi)) as Hf.
  assert (Hrows : rows = firstn i rows ++ r :: skipn (S i) rows).
  { rewrite <- (firstn_skipn i rows) at 1. f_equal. clear -E.
    revert i E. induction rows as [|a rows IH]; intros i E; destruct i; try discriminate; cbn in *.
    - congruence.
    - apply IH; auto. }
  split.
  - pose proof (f_equal (@length (list (nat * Z))) Hrows) as HL. rewrite app_length in *. cbn [length] in *. lia.
  - intros j. pose proof (f_equal (fun l => nth j l []) Hrows) as HN. cbv beta in HN. rewrite HN.
    clear HN.
    destruct (Nat.eqb_spec j i) as [->|N].
    + rewrite !app_nth2 by lia. rewrite Hf, Nat.sub_diag. reflexivity.
    + destruct (Nat.lt_ge_cases j i).
      * rewrite !app_nth1 by lia. reflexivity.
      * rewrite !app_nth2 by lia. rewrite Hf. destruct (j - i)%nat eqn:D; [lia|]. reflexivity.
Qed.

Lemma append_row_some rows i e :
  (i < length rows)%nat -> (length (nth i rows []) < max_neighbors)%nat ->
  exists rows', append_row rows i e = Some rows'.
Proof.
  intros Hi Hl. unfold append_row.
  rewrite (nth_error_nth' rows [] Hi). destruct (Nat.ltb_spec (length (nth i rows [])) max_neighbors); [|lia].
  eauto.
Qed.

Lemma neighbor_pair_spec ps rows ab rows' :
  fst ab <> snd ab ->
  neighbor_pair ps (Some rows) ab = Some rows' ->
  length rows' = length rows /\
  forall i, nth i rows' [] = nth i rows [] ++ contrib ps i ab.
Proof.
  intros Hne. unfold neighbor_pair, contrib. destruct ab as [a b]. cbn [fst snd] in *.
  destruct (nth_error ps a) as [p|]; [|discriminate].
  destruct (nth_error ps b) as [q|]; [|discriminate].
  destruct (masks p q) as [fm im]. cbn [fst snd].
  destruct (fm =? 0)%Z.
  { intros [= <-]. split; auto. intros i. rewrite app_nil_r. reflexivity. }
  destruct (append_row rows a (b, fm)) as [r1|] eqn:E1; [|discriminate]. intros E2.
  apply append_row_spec in E1 as [L1 N1]. apply append_row_spec in E2 as [L2 N2].
  split; [congruence|]. intros i. rewrite N2, N1. rewrite (Nat.eqb_sym i a), (Nat.eqb_sym i b).
  destruct (Nat.eqb_spec b i), (Nat.eqb_spec a i); try lia; auto; rewrite app_nil_r; auto.
Qed.

Lemma fold_none ps L : fold_left (neighbor_pair ps) L None = None.
Proof. induction L; auto. Qed.

Lemma fold_pairs ps L : forall rows rows',
  (forall ab, In ab L -> fst ab <> snd ab) ->
  fold_left (neighbor_pair ps) L (Some rows) = Some rows' ->
  length rows' = length rows /\
  forall i, nth i rows' [] = nth i rows [] ++ flat_map (contrib ps i) L.
Proof.
  induction L as [|ab L IH]; intros rows rows' Hne H; cbn [fold_left flat_map] in *.
  - injection H as <-. split; auto. intros i. rewrite app_nil_r. reflexivity.
  - destruct (neighbor_pair ps (Some rows) ab) as [r1|] eqn:E.
    + apply neighbor_pair_spec in E as [L1 N1]; [|apply Hne; left; auto].
      destruct (IH r1 rows') as [L2 N2]; auto. { intros ab' Hab. apply Hne. right; auto. }
      split; [congruence|]. intros i. rewrite N2, N1, app_assoc. reflexivity.
    + rewrite fold_none in H. discriminate.
Qed.

Lemma fold_pairs_some ps L : forall rows,
  (forall ab, In ab L -> fst ab <> snd ab /\ (fst ab < length ps)%nat /\ (snd ab < length ps)%nat) ->
  length rows = length ps ->
  (forall i, (length (nth i rows []) + length (flat_map (contrib ps i) L) <= max_neighbors)%nat) ->
  exists rows', fold_left (neighbor_pair ps) L (Some rows) = Some rows'.
Proof.
  induction L as [|ab L IH]; intros rows Hab Hlen Hcap; cbn [fold_left flat_map] in *; [eauto|].
  destruct (Hab ab (or_introl eq_refl)) as (Hne & Ha & Hb).
  assert (EX : exists r1, neighbor_pair ps (Some rows) ab = Some r1).
  { pose proof (Hcap (fst ab)) as Ca. pose proof (Hcap (snd ab)) as Cb.
    rewrite app_length in Ca, Cb. unfold contrib in Ca at 1. unfold contrib in Cb at 1.
    unfold neighbor_pair. destruct ab as [a b]. cbn [fst snd] in *.
    destruct (nth_error ps a) as [p|] eqn:Ea; [|apply nth_error_None in Ea; lia].
    destruct (nth_error ps b) as [q|] eqn:Eb; [|apply nth_error_None in Eb; lia].
    destruct (masks p q) as [fm im]. cbn [fst snd] in *.
    destruct (fm =? 0)%Z; [eauto|]. rewrite Nat.eqb_refl in Ca.
    destruct (Nat.eqb_spec a b) as [|_] in Cb; [congruence|]. rewrite Nat.eqb_refl in Cb.
    cbn [length] in Ca, Cb.
    destruct (append_row_some rows a (b, fm)) as (r1 & E1); [lia|lia|]. rewrite E1.
    apply append_row_spec in E1 as [L1 N1]. apply append_row_some; [lia|].
    rewrite N1. destruct (Nat.eqb_spec b a); [congruence|lia]. }
  destruct EX as (r1 & E1). rewrite E1. apply neighbor_pair_spec in E1 as [L1 N1]; auto.
  apply IH; [intros ab' Hab'; apply Hab; right; exact Hab'|congruence|].
  intros i. specialize (Hcap i).
  rewrite N1. rewrite app_length in *. lia.
Qed.

(** patches [i] and [j] touch, as a boolean *)
Definition touchb (ps : list patch) (i j : nat) : bool :=
  match nth_error ps (Nat.max i j), nth_error ps (Nat.min i j) with
  | Some p, Some q => negb (fst (masks p q) =? 0)%Z && negb (i =? j)%nat
  | _, _ => false
  end.

Lemma touchb_spec ps i j : touchb ps i j = true <->
  i <> j /\ exists p q, nth_error ps i = Some p /\ nth_error ps j = Some q /\ touching p q.
Proof.
  unfold touchb. destruct (Nat.lt_ge_cases i j) as [L|L].
  - rewrite Nat.max_r, Nat.min_l by lia.
    destruct (nth_error ps j) as [q|] eqn:Ej, (nth_error ps i) as [p|] eqn:Ei.
    + rewrite andb_true_iff, !negb_true_iff, masks_touching, Nat.eqb_neq. split.
      * intros [T N]. split; auto. exists p, q. auto using touching_sym.
      * intros (N & p' & q' & [= <-] & [= <-] & T). auto using touching_sym.
    + split; [discriminate|]. intros (_ & p' & q' & ? & _); discriminate.
    + split; [discriminate|]. intros (_ & p' & q' & _ & ? & _); discriminate.
    + split; [discriminate|]. intros (_ & p' & q' & _ & ? & _); discriminate.
  - rewrite Nat.max_l, Nat.min_r by lia.
    destruct (nth_error ps i) as [p|] eqn:Ei, (nth_error ps j) as [q|] eqn:Ej.
    + rewrite andb_true_iff, !negb_true_iff, masks_touching, Nat.eqb_neq. split.
      * intros [T N]. split; auto. exists p, q. auto.
      * intros (N & p' & q' & [= <-] & [= <-] & T). auto.
    + split; [discriminate|]. intros (_ & p' & q' & _ & ? & _); discriminate.
    + split; [discriminate|]. intros (_ & p' & q' & ? & _); discriminate.
    + split; [discriminate|]. intros (_ & p' & q' & ? & _); discriminate.
Qed.

Lemma contrib_row ps i n : (n <= length ps)%nat ->
  map fst (flat_map (contrib ps i) (pairs n)) =
  if (i <? n)%nat then filter (touchb ps i) (seq 0 n) else [].
Proof.
  unfold pairs. induction n as [|n IH]; intros Hn.
  - destruct (i <? 0)%nat; reflexivity.
  - rewrite seq_S, flat_map_app, flat_map_app, map_app, IH by lia. cbn [flat_map Nat.add].
    rewrite app_nil_r, filter_app. cbn [filter].
    assert (Hnn : exists p, nth_error ps n = Some p).
    { destruct (nth_error ps n) eqn:E; eauto. apply nth_error_None in E. lia. }
    destruct Hnn as (pn & Epn).
    destruct (Nat.ltb_spec i n) as [L|L].
    + destruct (Nat.ltb_spec i (S n)); [|lia]. f_equal.
      (* the block of patch n contributes n itself if it touches i *)
      assert (B : forall k, (k <= n)%nat -> map fst (flat_map (contrib ps i) (map (fun j => (n, j)) (seq 0 k)))
                 = if (i <? k)%nat then if touchb ps i n then [n] else [] else []).
      { induction k as [|k IHk]; intros Hk; [reflexivity|].
        rewrite seq_S, map_app, flat_map_app, map_app, IHk by lia. cbn [map flat_map Nat.add].
        rewrite app_nil_r. unfold contrib. cbn [fst snd]. rewrite Epn.
        destruct (nth_error ps k) as [pk|] eqn:Ek; [|apply nth_error_None in Ek; lia].
        destruct (Nat.eqb_spec n i); [lia|].
        destruct (Nat.eqb_spec k i) as [->|Nk].
        - destruct (Nat.ltb_spec i i); [lia|]. destruct (Nat.ltb_spec i (S i)); [|lia].
          cbn [app]. unfold touchb. rewrite Nat.max_r, Nat.min_l, Epn, Ek by lia.
          destruct (Nat.eqb_spec i n); [lia|]. cbn [negb]. rewrite andb_true_r.
          destruct (_ =? 0)%Z; reflexivity.
        - destruct (Nat.ltb_spec i k), (Nat.ltb_spec i (S k)); try lia;
            destruct (_ =? 0)%Z; cbn [map]; rewrite ?app_nil_r; reflexivity. }
      rewrite B by lia. destruct (Nat.ltb_spec i n); [|lia]. reflexivity.
    + destruct (Nat.ltb_spec i (S n)) as [L2|L2].
      * assert (i = n) by lia. subst i.
        assert (Tnn : touchb ps n n = false)
          by (unfold touchb; rewrite Nat.max_id, Nat.min_id, Epn, Nat.eqb_refl; apply andb_false_r).
        rewrite Tnn, app_nil_r. cbn [app].
        assert (B : forall k, (k <= n)%nat -> map fst (flat_map (contrib ps n) (map (fun j => (n, j)) (seq 0 k)))
                  = filter (touchb ps n) (seq 0 k)).
        { induction k as [|k IHk]; intros Hk; [reflexivity|].
          rewrite seq_S, map_app, flat_map_app, map_app, filter_app, IHk by lia. f_equal.
          cbn [map flat_map Nat.add filter]. rewrite app_nil_r. unfold contrib. cbn [fst snd].
          rewrite Epn.
          destruct (nth_error ps k) as [pk|] eqn:Ek; [|apply nth_error_None in Ek; lia].
          rewrite Nat.eqb_refl. unfold touchb. rewrite Nat.max_l, Nat.min_r, Epn, Ek by lia.
          destruct (Nat.eqb_spec n k); [lia|]. cbn [negb]. rewrite andb_true_r.
          destruct (_ =? 0)%Z; reflexivity. }
        apply B; lia.
      * cbn [app].
        assert (B : forall k, (k <= n)%nat -> flat_map (contrib ps i) (map (fun j => (n, j)) (seq 0 k)) = []).
        { induction k as [|k IHk]; intros Hk; [reflexivity|].
          rewrite seq_S, map_app, flat_map_app, IHk by lia. cbn [map flat_map Nat.add app].
          rewrite app_nil_r. unfold contrib. cbn [fst snd].
          destruct (nth_error ps n); [|reflexivity]. destruct (nth_error ps k); [|reflexivity].
          destruct (_ =? 0)%Z; [reflexivity|]. destruct (Nat.eqb_spec n i); [lia|].
          destruct (Nat.eqb_spec k i); [lia|]. reflexivity. }
        rewrite B by lia. reflexivity.
Qed.

Lemma pairs_ok n ab : In ab (pairs n) -> fst ab <> snd ab /\ (fst ab < n)%nat /\ (snd ab < n)%nat.
Proof.
  unfold pairs. rewrite in_flat_map. intros (i & Hi & Hab). apply in_map_iff in Hab as (j & <- & Hj).
  rewrite in_seq in Hi, Hj. cbn [fst snd]. lia.
Qed.

Lemma discover_rows ps rows :
  discover_neighbors ps = Some rows ->
  length rows = length ps /\ forall i, nth i rows [] = flat_map (contrib ps i) (pairs (length ps)).
Proof.
  intros H. unfold discover_neighbors in H. apply fold_pairs in H as [H1 H2].
  - rewrite repeat_length in H1. split; auto. intros i. rewrite H2.
    replace (nth i (repeat [] (length ps)) []) with (@nil (nat * Z)); auto.
    symmetry. destruct (Nat.lt_ge_cases i (length ps)).
    + apply nth_repeat.
    + apply nth_overflow. rewrite repeat_length. auto.
  - intros ab Hab. apply (pairs_ok _ _ Hab).
Qed.

(** The neighbours found for patch [i] are exactly the patches that touch it,
    each once, in increasing order. *)
Theorem neighbours_are_the_touching_patches :
  forall ps rows i,
  discover_neighbors ps = Some rows -> (i < length ps)%nat ->
  length rows = length ps /\
  Sorted.StronglySorted lt (map fst (nth i rows [])) /\
  forall j, In j (map fst (nth i rows [])) <->
    i <> j /\ exists p q, nth_error ps i = Some p /\ nth_error ps j = Some q /\ touching p q.
Proof.
  intros ps rows i H Hi. apply discover_rows in H as [HL HR]. split; [exact HL|].
  rewrite HR, contrib_row by lia. destruct (Nat.ltb_spec i (length ps)); [|lia]. split.
  - generalize (length ps) as n. intros n. generalize 0%nat as s. induction n as [|n IH]; intros s; cbn [seq filter].
    + constructor.
    + destruct (touchb ps i s); auto. constructor; auto.
      apply Forall_forall. intros y Hy. apply filter_In in Hy as [Hy _]. apply in_seq in Hy. lia.
  - intros j. rewrite filter_In, touchb_spec, in_seq. split; [tauto|].
    intros (N & p & q & E1 & E2 & T). split; [|eauto 6].
    assert (j < length ps)%nat by (apply nth_error_Some; congruence). lia.
Qed.

(** Being neighbours is symmetric. *)
Theorem neighbours_are_symmetric :
  forall ps rows i j,
  discover_neighbors ps = Some rows -> (i < length ps)%nat -> (j < length ps)%nat ->
  In j (map fst (nth i rows [])) -> In i (map fst (nth j rows [])).
Proof.
  intros ps rows i j H Hi Hj Hin.
  apply (neighbours_are_the_touching_patches ps rows i H Hi) in Hin as (N & p & q & E1 & E2 & T).
  apply (neighbours_are_the_touching_patches ps rows j H Hj). split; auto.
  exists q, p. auto using touching_sym.
Qed.

(** Discovery succeeds when no patch touches more than 48 others. *)
Theorem neighbours_found_up_to_48 :
  forall ps,
  (forall i, (i < length ps)%nat ->
     exists js, (length js <= 48)%nat /\
     forall j p q, nth_error ps i = Some p -> nth_error ps j = Some q -> i <> j ->
       touching p q -> In j js) ->
  exists rows, discover_neighbors ps = Some rows.
Proof.
  intros ps H. unfold discover_neighbors. apply fold_pairs_some.
  - intros ab. apply pairs_ok.
  - apply repeat_length.
  - intros i.
    replace (nth i (repeat [] (length ps)) []) with (@nil (nat * Z)).
    2:{ symmetry. destruct (Nat.lt_ge_cases i (length ps)).
        - apply nth_repeat.
        - apply nth_overflow. rewrite repeat_length. auto. }
    cbn [length Nat.add]. rewrite <- (map_length fst), contrib_row by lia.
    destruct (Nat.ltb_spec i (length ps)) as [L|L]; [|cbn; unfold max_neighbors; lia].
    destruct (H i L) as (js & Hlen & Hjs).
    transitivity (length js); [|exact Hlen]. apply NoDup_incl_length.
    + apply NoDup_filter, seq_NoDup.
    + intros j Hj. apply filter_In in Hj as [_ Hj]. apply touchb_spec in Hj as (N & p & q & E1 & E2 & T).
      eapply Hjs; eauto.
Qed.

(** The mask stored with a neighbour: bit 6+k says whether the two patches touch
    on axis k, bit 2k that they do and the row's patch is the one with the larger
    (or equal) centre, bit 2k+1 that they do and it is the one with the smaller. *)
Theorem neighbour_masks_describe_the_contact :
  forall ps rows i j mask p q k,
  discover_neighbors ps = Some rows -> (j < i)%nat ->
  nth_error ps i = Some p -> nth_error ps j = Some q -> (k < 3)%nat ->
  In (j, mask) (nth i rows []) ->
  (Z.testbit mask (6 + Z.of_nat k) = true <-> touch_on p q k) /\
  (Z.testbit mask (2 * Z.of_nat k) = true <-> touch_on p q k /\ centre q k <= centre p k) /\
  (Z.testbit mask (2 * Z.of_nat k + 1) = true <-> touch_on p q k /\ centre p k < centre q k) /\
  exists mask', In (i, mask') (nth j rows []) /\
    Z.testbit mask' (6 + Z.of_nat k) = Z.testbit mask (6 + Z.of_nat k) /\
    Z.testbit mask' (2 * Z.of_nat k) = Z.testbit mask (2 * Z.of_nat k + 1) /\
    Z.testbit mask' (2 * Z.of_nat k + 1) = Z.testbit mask (2 * Z.of_nat k).
Proof.
  intros ps rows i j mask p q k H Hji Ep Eq Hk Hin. apply discover_rows in H as [HL HR].
  rewrite HR in Hin. apply in_flat_map in Hin as ([a b] & Hab & Hin).
  unfold contrib in Hin. cbn [fst snd] in Hin.
  destruct (nth_error ps a) as [pa|] eqn:Ea; [|destruct Hin].
  destruct (nth_error ps b) as [pb|] eqn:Eb; [|destruct Hin].
  destruct (fst (masks pa pb) =? 0)%Z eqn:M; [destruct Hin|].
  assert (Hba : (b < a)%nat).
  { unfold pairs in Hab. apply in_flat_map in Hab as (a' & _ & Hab). apply in_map_iff in Hab as (b' & [= <- <-] & Hb).
    apply in_seq in Hb. lia. }
  destruct (Nat.eqb_spec a i) as [->|Na].
  2:{ destruct (Nat.eqb_spec b i) as [->|Nb]; [|destruct Hin]. exfalso.
      destruct Hin as [[= <- _]|[]]. lia. }
  destruct Hin as [[= <- <-]|[]].
  assert (pa = p) by congruence. assert (pb = q) by congruence. subst pa pb.
  destruct (masks_bits p q) as (B & _ & _). specialize (B k Hk) as (B1 & B2 & B3 & B4 & B5 & B6).
  assert (PN : possible_neighbor p q = true).
  { apply masks_touching in M. apply possible_iff. apply M. }
  rewrite PN in *. cbn [andb] in *.
  assert (SG : sb p q k = true <-> centre q k <= centre p k).
  { unfold sb. rewrite Qle_bool_iff. unfold p_xm, centre. split; intros; lra. }
  assert (SG' : sb p q k = false <-> centre p k < centre q k).
  { unfold sb. rewrite Qleb_gt. unfold p_xm, centre. split; intros; lra. }
  split; [|split; [|split]].
  - rewrite B1. apply touch_isclose.
  - rewrite B3, andb_true_iff, touch_isclose, SG. reflexivity.
  - rewrite B4, andb_true_iff, negb_true_iff, touch_isclose, SG'. reflexivity.
  - exists (snd (masks p q)). rewrite B1, B2, B3, B4, B5, B6. split; [|auto].
    rewrite HR. apply in_flat_map. exists (i, b). split; [exact Hab|].
    unfold contrib. cbn [fst snd]. rewrite Ea, Eb, M.
    destruct (Nat.eqb_spec i b); [lia|]. rewrite Nat.eqb_refl. left. reflexivity.
Qed.

(** ** Where the code falls short *)

(** small boxes to build layouts from *)
Definition box (x0 y0 z0 x1 y1 z1 : Z) (f : cfield) : patch :=
  mkpatch (mkpt (inject_Z x0) (inject_Z y0) (inject_Z z0))
          (mkpt (inject_Z x1) (inject_Z y1) (inject_Z z1)) f.
Definition constant (c : Q) : cfield :=
  mkf (fun _ => 2%nat) (fun _ _ i => inject_Z (Z.of_nat i)) false (fun _ _ _ _ => c).
Lemma constant_prepared c : prepared (constant c).
Proof.
  constructor.
  - intros d Hd. cbn. lia.
  - intros m d Hd i j Hij. cbn [crd constant]. rewrite <- Zlt_Qlt. lia.
  - intros m d Hd H. discriminate.
Qed.

(** Where patches overlap the value depends on what was looked up before: two
    patches share the face x = 1; the point on it gets the value of the patch the
    previous point was in. *)
Definition two_patches : list patch := [box 0 0 0 1 1 1 (constant 10); box 1 0 0 2 1 1 (constant 20)].
Definition two_nbs : list (list nat) := [[1]; [0]]%nat.
Theorem amr_value_depends_on_history_where_patches_overlap_refuted :
  exists ps nbs before x v1 v2,
    (forall p, In p ps -> prepared (p_fld p)) /\
    option_map (map (map fst)) (discover_neighbors ps) = Some nbs /\
    interp interp_trilin1 ps nbs 1 [x] = Some [[v1]] /\
    (exists w, interp interp_trilin1 ps nbs 1 [before; x] = Some [[w]; [v2]]) /\
    ~ v1 == v2.
Proof.
  exists two_patches, two_nbs, (mkpt (3#2) (1#2) (1#2)), (mkpt 1 (1#2) (1#2)).
  do 2 eexists.
  split; [intros p [<-|[<-|[]]]; apply constant_prepared|].
  split; [vm_compute; reflexivity|].
  split; [vm_compute; reflexivity|].
  split; [eexists; vm_compute; reflexivity|].
  intro H; vm_compute in H; discriminate.
Qed.

(** The cached index is kept when the active patch changes.  If the new patch has
    shorter axes the search starts outside its coordinate buffer (here index 2 of
    a buffer of width 2), although each of the two points alone is fine. *)
Definition long : cfield :=
  mkf (fun d => match d with O => 4 | _ => 2 end%nat)
      (fun _ d i => inject_Z (Z.of_nat i)) false (fun _ _ _ _ => 10).
Definition uneven_patches : list patch := [box 0 0 0 3 1 1 long; box 3 0 0 4 1 1 (constant 20)].
Theorem cached_index_can_leave_the_next_patch_refuted :
  exists ps nbs x y,
    (forall p, In p ps -> prepared (p_fld p)) /\
    (exists v, interp interp_nearest1 ps nbs 1 [x] = Some [[v]]) /\
    (exists v, interp interp_nearest1 ps nbs 1 [y] = Some [[v]]) /\
    interp interp_nearest1 ps nbs 1 [x; y] = None.
Proof.
  exists uneven_patches, two_nbs, (mkpt (5#2) (1#2) (1#2)), (mkpt (7#2) (1#2) (1#2)).
  split.
  { intros p [<-|[<-|[]]]; [|apply constant_prepared]. constructor.
    - intros d Hd. destruct d; cbn; lia.
    - intros m d Hd i j Hij. cbn [crd p_fld box long]. rewrite <- Zlt_Qlt. lia.
    - intros m d Hd H. discriminate. }
  split; [eexists; vm_compute; reflexivity|].
  split; [eexists; vm_compute; reflexivity|].
  vm_compute; reflexivity.
Qed.

(** A patch with 49 neighbours makes neighbour discovery fail: here 7 by 7 unit
    patches on one face of a patch of edge 7. *)
Definition crowded : list patch :=
  box 0 0 0 7 7 7 (constant 0)
  :: flat_map (fun i => map (fun j => box 7 (Z.of_nat i) (Z.of_nat j) 8 (Z.of_nat i + 1)
                                         (Z.of_nat j + 1) (constant 0)) (seq 0 7)) (seq 0 7).
Theorem neighbour_discovery_fails_past_48_refuted :
  exists ps, (forall p, In p ps -> prepared (p_fld p)) /\ discover_neighbors ps = None.
Proof.
  exists crowded. split; [|vm_compute; reflexivity].
  intros p [<-|Hp]; [apply constant_prepared|].
  apply in_flat_map in Hp as (i & _ & Hp). apply in_map_iff in Hp as (j & <- & _).
  apply constant_prepared.
Qed.

(** The documentation says that the lesser flag is used when the neighbour is to
    the right.  The code does the opposite: the left patch's row carries the
    greater flag (bit 1) for its right neighbour. *)
Theorem neighbour_flag_is_opposite_to_its_documentation_refuted :
  exists rows mask,
    discover_neighbors two_patches = Some rows /\ nth 0 rows [] = [(1%nat, mask)] /\
    (* patch 1 is to the right of patch 0 *)
    co (p_xl (box 0 0 0 1 1 1 (constant 10))) 0 < co (p_xl (box 1 0 0 2 1 1 (constant 20))) 0 /\
    Z.testbit mask 0 = false /\ Z.testbit mask 1 = true.
Proof.
  do 2 eexists. split; [vm_compute; reflexivity|]. split; [reflexivity|].
  split; [vm_compute; reflexivity|]. split; reflexivity.
Qed.

(** A skeleton is reused for a dataset whose patches start at the same corners and
    have as many cells but end elsewhere; the lookup through the reused skeleton
    then picks a patch that does not hold the point although another does. *)
Theorem skeleton_reuse_ignores_upper_corners_refuted :
  exists old new ncells x p q,
    Forall2 (fun a b => patch_compatable a b ncells ncells = true) old new /\
    nth_error new (activate_patch old [[1]; [0]]%nat 0 x) = Some p /\ ~ inside p x /\
    In q new /\ inside q x.
Proof.
  exists [box 0 0 0 2 1 1 (constant 0); box 1 0 0 4 1 1 (constant 0)],
         [box 0 0 0 1 1 1 (constant 0); box 1 0 0 4 1 1 (constant 0)], (fun _ => 1%nat),
         (mkpt (3#2) (1#2) (1#2)), (box 0 0 0 1 1 1 (constant 0)), (box 1 0 0 4 1 1 (constant 0)).
  split; [repeat constructor|].
  split; [vm_compute; reflexivity|].
  split; [intro H; specialize (H 0%nat ltac:(lia)); destruct H as [_ H]; vm_compute in H; apply H; reflexivity|].
  split; [right; left; reflexivity|].
  apply contains_inside. vm_compute. reflexivity.
Qed.

(** ** Witnesses *)
Example two_neighbours :
  option_map (map (map fst)) (discover_neighbors two_patches) = Some two_nbs.
Proof. vm_compute. reflexivity. Qed.
Example two_lookup :
  activate_patch two_patches two_nbs (active_after two_patches two_nbs [mkpt (3#2) 0 0; mkpt 0 0 0]) (mkpt 9 0 0)
  = 1%nat.
Proof. vm_compute. reflexivity. Qed.
Example two_interp :
  option_map (map (map Qred))
    (interp interp_trilin1 two_patches two_nbs 1 [mkpt (1#2) 0 0; mkpt (3#2) 0 0; mkpt (1#3) 0 0])
  = Some [[10]; [20]; [10]].
Proof. vm_compute. reflexivity. Qed.
Example two_far x p : In x [mkpt (1#2) 0 0; mkpt (3#2) 0 0; mkpt (1#3) 0 0] -> In p two_patches ->
  centre_dist2 x p < MAX_FLOAT.
Proof.
  intros Hx Hp. cbn [In two_patches] in Hx, Hp.
  destruct Hx as [<-|[<-|[<-|[]]]]; destruct Hp as [<-|[<-|[]]]; vm_compute; reflexivity.
Qed.

Print Assumptions amr_lookup_uses_a_patch_holding_the_point.
Print Assumptions amr_interpolation_uses_a_patch_holding_the_point.
Print Assumptions amr_interpolation_independent_of_history_where_patches_do_not_overlap.
Print Assumptions neighbours_are_the_touching_patches.
Print Assumptions neighbours_are_symmetric.
Print Assumptions neighbours_found_up_to_48.
Print Assumptions neighbour_masks_describe_the_contact.
Print Assumptions amr_value_depends_on_history_where_patches_overlap_refuted.
Print Assumptions cached_index_can_leave_the_next_patch_refuted.
Print Assumptions neighbour_discovery_fails_past_48_refuted.
Print Assumptions neighbour_flag_is_opposite_to_its_documentation_refuted.
Print Assumptions skeleton_reuse_ignores_upper_corners_refuted.
