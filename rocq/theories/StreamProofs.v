(** Proofs about the streamline loop. *)
From Verif Require Export StreamSpec.
From Coq Require Import ZifyBool ZifyNat Lqa.
Open Scope Q_scope.

Lemma Qltb_lt a b : Qltb a b = true <-> a < b.
Proof.
  unfold Qltb. rewrite negb_true_iff. split; intros H.
  - apply Qnot_le_lt. intro H'. apply Qle_bool_iff in H'. congruence.
  - destruct (Qle_bool b a) eqn:E; auto. apply Qle_bool_iff in E. lra.
Qed.
Lemma Qltb_ge a b : Qltb a b = false <-> b <= a.
Proof.
  unfold Qltb. rewrite negb_false_iff. apply Qle_bool_iff.
Qed.
Lemma Qleb_gt a b : Qle_bool a b = false <-> b < a.
Proof.
  split; intros H.
  - apply Qnot_le_lt. intro H'. apply Qle_bool_iff in H'. congruence.
  - destruct (Qle_bool a b) eqn:E; auto. apply Qle_bool_iff in E. lra.
Qed.

Lemma classify_cases P p len t :
  (classify_endpoint P p len t = 0%Z /\ inside P p /\ ~ length_spent P len /\ ~ time_spent P t) \/
  (classify_endpoint P p len t <> 0%Z /\ reason P p len t (classify_endpoint P p len t)).
Proof.
  unfold classify_endpoint. cbv zeta.
  destruct (Qltb _ (p_ibound P * p_ibound P)) eqn:E1.
  { right. apply Qltb_lt in E1. destruct (Qle_bool 0 (pz p)) eqn:E2.
    - apply Qle_bool_iff in E2. split; [discriminate|]. apply R_north; auto.
    - apply Qleb_gt in E2. split; [discriminate|]. apply R_south; auto. }
  apply Qltb_ge in E1. assert (Ni : ~ inner P p) by (unfold inner, rsq; lra).
  destruct (negb _ && _) eqn:E2.
  { right. apply andb_true_iff in E2. destruct E2 as [E2 E3].
    apply negb_true_iff in E2. apply Qeq_bool_neq in E2. apply Qltb_lt in E3.
    split; [discriminate|]. apply R_radius; auto. split; auto. }
  assert (Nr : ~ beyond_r P p).
  { intros [A B]. apply andb_false_iff in E2. destruct E2 as [E2|E2].
    - apply negb_false_iff in E2. apply Qeq_bool_iff in E2. auto.
    - apply Qltb_ge in E2. unfold rsq in B. lra. }
  destruct (Qltb (px p) _) eqn:X1. { right. split; [discriminate|]. apply R_xl; auto. now apply Qltb_lt. }
  destruct (Qltb (py p) _) eqn:X2. { right. split; [discriminate|]. apply R_yl; auto. now apply Qltb_lt. }
  destruct (Qltb (pz p) _) eqn:X3. { right. split; [discriminate|]. apply R_zl; auto. now apply Qltb_lt. }
  destruct (Qltb _ (px p)) eqn:X4. { right. split; [discriminate|]. apply R_xh; auto. now apply Qltb_lt. }
  destruct (Qltb _ (py p)) eqn:X5. { right. split; [discriminate|]. apply R_yh; auto. now apply Qltb_lt. }
  destruct (Qltb _ (pz p)) eqn:X6. { right. split; [discriminate|]. apply R_zh; auto. now apply Qltb_lt. }
  apply Qltb_ge in X1, X2, X3, X4, X5, X6.
  assert (In : inside P p) by (repeat split; auto).
  destruct (Qltb 0 (p_maxlen P) && _) eqn:L.
  { right. apply andb_true_iff in L. destruct L as [L1 L2]. apply Qltb_lt in L1. apply Qle_bool_iff in L2.
    split; [discriminate|]. apply R_len; auto. split; auto. }
  assert (Nl : ~ length_spent P len).
  { intros [A B]. apply Qltb_lt in A. apply Qle_bool_iff in B. rewrite A, B in L. discriminate. }
  destruct (Qltb 0 (p_maxt P) && _) eqn:T.
  { right. apply andb_true_iff in T. destruct T as [L1 L2]. apply Qltb_lt in L1. apply Qle_bool_iff in L2.
    split; [discriminate|]. apply R_time; auto. split; auto. }
  assert (Nt : ~ time_spent P t).
  { intros [A B]. apply Qltb_lt in A. apply Qle_bool_iff in B. rewrite A, B in T. discriminate. }
  left. auto.
Qed.

(** ** The buffer *)
Lemma nth_error_skipn_at {A} (l : list A) k m : nth_error (skipn k l) m = nth_error l (k + m).
Proof.
  revert l. induction k; intros l; [reflexivity|]. destruct l; [destruct m; reflexivity|]. cbn. apply IHk.
Qed.

Lemma bwrite_spec buf it p :
  (0 <= it < Z.of_nat (length buf))%Z ->
  exists buf', bwrite buf it p = Some buf' /\ length buf' = length buf /\
    forall j, nth_error buf' j = if Nat.eqb j (Z.to_nat it) then Some (Some p) else nth_error buf j.
Proof.
  intros H. unfold bwrite.
  replace ((0 <=? it)%Z && (it <? Z.of_nat (length buf))%Z) with true
    by (symmetry; apply andb_true_iff; lia).
  eexists. split; [reflexivity|]. set (k := Z.to_nat it). assert (Hk : (k < length buf)%nat) by lia.
  split.
  - rewrite app_length. cbn [length]. rewrite firstn_length, skipn_length. lia.
  - intros j. destruct (Nat.eqb_spec j k) as [->|N].
    + rewrite nth_error_app2 by (rewrite firstn_length; lia).
      rewrite firstn_length. replace (k - Nat.min k (length buf))%nat with 0%nat by lia. reflexivity.
    + destruct (Nat.lt_ge_cases j k).
      * rewrite nth_error_app1 by (rewrite firstn_length; lia).
        clear -H0. revert j buf H0. induction k; intros j buf Hj; [lia|].
        destruct buf; [destruct j; reflexivity|]. destruct j; [reflexivity|]. cbn. apply IHk. lia.
      * rewrite nth_error_app2 by (rewrite firstn_length; lia).
        rewrite firstn_length. replace (j - Nat.min k (length buf))%nat with (S (j - S k))%nat by lia.
        cbn [nth_error]. rewrite nth_error_skipn_at. f_equal. lia.
Qed.

(** [buf'] is [buf] with the points of [ps] written from [it] on in steps of d. *)
Definition wrote (d it : Z) (ps : list pt) (buf buf' : list (option pt)) : Prop :=
  length buf' = length buf /\
  (forall k p, nth_error ps k = Some p ->
     nth_error buf' (Z.to_nat (it + d * Z.of_nat k)) = Some (Some p)) /\
  (forall j, (forall k, (k < length ps)%nat -> (Z.of_nat j <> it + d * Z.of_nat k)%Z) ->
     nth_error buf' j = nth_error buf j).

Lemma wrote_nil d it buf : wrote d it [] buf buf.
Proof. repeat split; auto. intros [|k] p H; discriminate. Qed.

Lemma wrote_cons d it p ps buf buf1 buf2 :
  (d = 1 \/ d = -1)%Z -> (0 <= it < Z.of_nat (length buf))%Z ->
  (forall k, (k < length ps)%nat -> (0 <= it + d * Z.of_nat (S k))%Z) ->
  length buf1 = length buf ->
  (forall j, nth_error buf1 j = if Nat.eqb j (Z.to_nat it) then Some (Some p) else nth_error buf j) ->
  wrote d (it + d) ps buf1 buf2 -> wrote d it (p :: ps) buf buf2.
Proof.
  intros Hd Hit Hpos Hl H1 (L & W & U). split; [congruence|]. split.
  - intros [|k] q Hq.
    + injection Hq as <-. rewrite U.
      * rewrite H1. replace (Z.to_nat (it + d * Z.of_nat 0)) with (Z.to_nat it) by (f_equal; lia).
        rewrite Nat.eqb_refl. reflexivity.
      * intros k Hk E. nia.
    + cbn [nth_error] in Hq. apply W in Hq. rewrite <- Hq. f_equal. f_equal. lia.
  - intros j Hj. rewrite U.
    + rewrite H1. destruct (Nat.eqb_spec j (Z.to_nat it)) as [E|E]; [|reflexivity].
      exfalso. apply (Hj 0%nat); cbn [length]; lia.
    + intros k Hk E. apply (Hj (S k)); cbn [length]; lia.
Qed.

(** ** The kept fraction *)
Lemma min_if a b : (if Qle_bool a b then a else b) == Qmin a b.
Proof.
  destruct (Qle_bool a b) eqn:E.
  - apply Qle_bool_iff in E. rewrite Q.min_l; [reflexivity|auto].
  - apply Qleb_gt in E. rewrite Q.min_r; [reflexivity|lra].
Qed.

Lemma div_frac m l a : l <= m -> m < l + a -> 0 <= (m - l) / a /\ (m - l) / a < 1 /\ l + (m - l) / a * a == m.
Proof.
  intros H1 H2. assert (0 < a) by lra.
  assert (E : (m - l) / a * a == m - l) by (field; lra).
  split; [|split].
  - apply Qle_shift_div_l; lra.
  - apply Qlt_shift_div_r; lra.
  - rewrite E. lra.
Qed.

Lemma kept_ok P len a t b trim :
  (0 < p_maxlen P -> len <= p_maxlen P) -> (0 < p_maxt P -> t <= p_maxt P) ->
  0 <= a -> (0 < p_maxt P -> 0 <= b) -> 1 <= trim ->
  forall trim_t,
  let trim1 := if Qltb 0 (p_maxlen P) && Qltb (p_maxlen P) (len + a)
               then ((p_maxlen P - len) / a)%Q else trim in
  let over_t := Qltb 0 (p_maxt P) && Qltb (p_maxt P) (t + b) in
  let trim_t' := if over_t then ((p_maxt P - t) / b)%Q else trim_t in
  let trim' := if over_t && Qltb trim_t' trim1 then trim_t' else trim1 in
  (1 <= trim' /\ kept P len a t b 1) \/
  (trim' < 1 /\ kept P len a t b trim' /\ (length_spent P (len + a) \/ time_spent P (t + b))).
Proof.
  intros HL HT Ha Hb Htr trim_t trim1 over_t trim_t' trim'.
  assert (C1 : (trim1 = trim /\ (0 < p_maxlen P -> len + a <= p_maxlen P)) \/
               (0 < p_maxlen P /\ p_maxlen P < len + a /\ trim1 = (p_maxlen P - len) / a)).
  { unfold trim1. destruct (Qltb 0 (p_maxlen P)) eqn:E1; cbn [andb].
    - apply Qltb_lt in E1. destruct (Qltb (p_maxlen P) (len + a)) eqn:E2.
      + apply Qltb_lt in E2. right. auto.
      + apply Qltb_ge in E2. left. auto.
    - apply Qltb_ge in E1. left. split; auto. intros; lra. }
  assert (C2 : (over_t = false /\ (0 < p_maxt P -> t + b <= p_maxt P)) \/
               (over_t = true /\ 0 < p_maxt P /\ p_maxt P < t + b)).
  { unfold over_t. destruct (Qltb 0 (p_maxt P)) eqn:E1; cbn [andb].
    - apply Qltb_lt in E1. destruct (Qltb (p_maxt P) (t + b)) eqn:E2.
      + apply Qltb_lt in E2. right. auto.
      + apply Qltb_ge in E2. left. auto.
    - apply Qltb_ge in E1. left. split; auto. intros; lra. }
  clearbody trim1 over_t. unfold trim', trim_t'.
  destruct C1 as [[-> F1]|(P1 & O1 & ->)], C2 as [[-> F2]|(-> & P2 & O2)]; cbn [andb].
  - left. split; auto. repeat split; intros; try lra.
  - destruct (div_frac _ _ _ (HT P2) O2) as (D1 & D2 & D3). set (f := (p_maxt P - t) / b) in *.
    replace (Qltb f trim) with true by (symmetry; apply Qltb_lt; lra).
    right. split; auto. split; [|right; split; auto; lra].
    repeat split; auto; intros; try lra.
    assert (f * a <= 1 * a) by (apply Qmult_le_compat_r; lra).
    specialize (F1 ltac:(lra)). lra.
  - destruct (div_frac _ _ _ (HL P1) O1) as (D1 & D2 & D3). set (f := (p_maxlen P - len) / a) in *.
    right. split; auto. split; [|left; split; auto; lra].
    repeat split; auto; intros; try lra.
    assert (f * b <= 1 * b) by (apply Qmult_le_compat_r; [lra|auto]).
    specialize (F2 ltac:(lra)). lra.
  - destruct (div_frac _ _ _ (HT P2) O2) as (D1 & D2 & D3). set (f := (p_maxt P - t) / b) in *.
    destruct (div_frac _ _ _ (HL P1) O1) as (G1 & G2 & G3). set (g := (p_maxlen P - len) / a) in *.
    destruct (Qltb f g) eqn:E.
    + apply Qltb_lt in E. right. split; auto. split; [|right; split; auto; lra].
      repeat split; auto; intros; try lra.
      assert (f * a <= g * a) by (apply Qmult_le_compat_r; lra). lra.
    + apply Qltb_ge in E. right. split; auto. split; [|right; split; auto; lra].
      repeat split; auto; intros; try lra.
      assert (g * b <= f * b) by (apply Qmult_le_compat_r; [lra|auto]). lra.
Qed.

Lemma along_1 s0 s : along 1 s0 s s.
Proof. repeat split; ring. Qed.

Lemma along_lerp f s0 s : along f s0 s (lerp f s0 s).
Proof. repeat split; reflexivity. Qed.

(** ** The loop *)
Lemma walk_traced {H} (integ : integrator H) P d :
  (d = 1 \/ d = -1)%Z ->
  forall n fuel it s ds dt len t trim trim_t h buf,
    (n < fuel)%nat ->
    length buf = (2 * p_maxit P + 1)%nat ->
    (n <= length buf)%nat ->
    it = (if d =? 1 then Z.of_nat (length buf) - Z.of_nat n else Z.of_nat n - 1)%Z ->
    (0 < p_maxlen P -> len <= p_maxlen P) -> (0 < p_maxt P -> t <= p_maxt P) -> 1 <= trim ->
    exists steps why h' buf',
      walk integ P d fuel it s ds dt len t trim trim_t h buf
        = Some (Done (it + d * Z.of_nat (length steps)) why buf' h') /\
      traced integ P n (mkt s ds dt len t h) steps why h' /\
      wrote d it (points steps) buf buf'.
Proof.
  intros Hd n. induction n as [|n IH]; intros fuel it s ds dt len t trim trim_t h buf Hf Hb Hn Hit HL HT Htr.
  - destruct fuel as [|fuel]; [lia|]. cbn [walk].
    replace ((0 <=? it)%Z && (it <? 2 * Z.of_nat (p_maxit P) + 1)%Z) with false
      by (symmetry; apply andb_false_iff; destruct Hd as [-> | ->]; cbn [Z.eqb Pos.eqb] in Hit; lia).
    exists [], END_MAXIT, h, buf. split.
    + f_equal. f_equal. cbn [length]. lia.
    + split; [apply (T_full integ P (mkt s ds dt len t h))|apply wrote_nil].
  - destruct fuel as [|fuel]; [lia|]. cbn [walk].
    assert (Hr : (0 <= it < Z.of_nat (length buf))%Z)
      by (destruct Hd as [-> | ->]; cbn [Z.eqb Pos.eqb] in Hit; lia).
    replace ((0 <=? it)%Z && (it <? 2 * Z.of_nat (p_maxit P) + 1)%Z) with true
      by (symmetry; apply andb_true_iff; lia).
    cbv zeta.
    set (r := integ h s ds dt).
    set (dt' := if Qltb 0 (p_maxt P) then i_dt r else dt).
    set (a := if Qle_bool (Qabs ds) (Qabs (i_ds r)) then Qabs ds else Qabs (i_ds r)).
    set (b := if Qltb 0 (p_maxt P) then Qabs dt' else p_junk P).
    assert (Ha : a == Qmin (Qabs ds) (Qabs (i_ds r))) by apply min_if.
    assert (Ha0 : 0 <= a).
    { rewrite Ha. apply Q.min_glb; apply Qabs_nonneg. }
    assert (Hb0 : 0 < p_maxt P -> dt' = i_dt r /\ b == Qabs (i_dt r)).
    { intros M. apply Qltb_lt in M. unfold b, dt'. rewrite M. split; reflexivity. }
    assert (Hb1 : 0 < p_maxt P -> 0 <= b).
    { intros M. destruct (Hb0 M) as [_ E]. rewrite E. apply Qabs_nonneg. }
    pose proof (kept_ok P len a t b trim HL HT Ha0 Hb1 Htr trim_t) as K. cbv zeta in K.
    fold a b in K.
    match goal with |- context [Qltb ?x 1] => set (trim' := x) in * end.
    set (s' := if Qltb trim' 1 then lerp trim' s (i_s r) else i_s r).
    destruct (i_ret r =? 0)%Z eqn:Er; cbn [negb].
    2:{ exists [], END_ZERO_LENGTH, (i_h r), buf. split.
        - f_equal. f_equal. cbn [length]. lia.
        - split; [|apply wrote_nil]. apply (T_stuck integ P n (mkt s ds dt len t h)).
          cbn [t_h t_p t_ds t_dt]. fold r. lia. }
    apply Z.eqb_eq in Er.
    destruct (bwrite_spec buf it s' Hr) as (buf1 & Eb & Lb & Nb). rewrite Eb.
    set (o := mkt s ds dt len t h).
    set (o' := mkt s' (i_ds r) dt' (len + a) (t + b) (i_h r)).
    assert (Adv : exists f, advance integ P o o' a f /\
              (1 <= trim' \/ length_spent P (len + a) \/ time_spent P (t + b))).
    { assert (forall f, kept P len a t b f -> along f s (i_s r) s' -> advance integ P o o' a f) as Mk.
      { intros f Kf Al. unfold advance, o, o'. cbn [t_h t_p t_ds t_dt t_len t_time]. fold r.
        split; [exact Er|]. split; [reflexivity|]. split; [reflexivity|]. split; [exact Ha|].
        split; [reflexivity|]. exists b. split; [exact Hb0|]. split; [reflexivity|]. split; assumption. }
      destruct K as [[K1 K2]|(K1 & K2 & K3)].
      - exists 1. split; [|auto]. apply Mk; auto. unfold s'.
        replace (Qltb trim' 1) with false by (symmetry; apply Qltb_ge; auto). apply along_1.
      - exists trim'. split; [|auto]. apply Mk; auto. unfold s'.
        replace (Qltb trim' 1) with true by (symmetry; apply Qltb_lt; auto). apply along_lerp. }
    destruct Adv as (f & Adv & Stop).
    destruct (classify_cases P s' (len + a) (t + b)) as [(Ec & In & Nl & Nt)|(Ec & Rs)].
    + rewrite Ec. cbn [Z.eqb negb].
      assert (Htr' : 1 <= trim') by (destruct Stop as [|[|]]; [auto|contradiction|contradiction]).
      destruct (IH fuel (it + d)%Z s' (i_ds r) dt' (len + a) (t + b) trim'
                   (if Qltb 0 (p_maxt P) && Qltb (p_maxt P) (t + b)
                    then (p_maxt P - t) / b else trim_t) (i_h r) buf1)
        as (steps & why & h' & buf2 & Ew & Tr & W); auto.
      { lia. } { congruence. } { lia. }
      { rewrite Hit, Lb. destruct Hd as [-> | ->]; cbn [Z.eqb Pos.eqb]; lia. }
      { intros M. destruct (Qlt_le_dec (p_maxlen P) (len + a)); auto. exfalso. apply Nl. split; auto. lra. }
      { intros M. destruct (Qlt_le_dec (p_maxt P) (t + b)); auto. exfalso. apply Nt. split; auto. lra. }
      exists ((s', a, f) :: steps), why, h', buf2. split; [|split].
      * rewrite Ew. f_equal. f_equal. cbn [length]. lia.
      * apply (T_go integ P n o o' a f); auto.
      * cbn [points map fst]. apply wrote_cons with (buf1 := buf1); auto.
        intros k Hk. unfold points in Hk. rewrite map_length in Hk.
        assert (forall n o st w hh, traced integ P n o st w hh -> (length st <= n)%nat) as Ln.
        { clear. induction 1; cbn [length]; lia. }
        apply Ln in Tr. rewrite Hit. destruct Hd as [-> | ->]; cbn [Z.eqb Pos.eqb]; lia.
    + destruct (classify_endpoint P s' (len + a) (t + b) =? 0)%Z eqn:Ez; [lia|]. cbn [negb].
      exists [(s', a, f)], (classify_endpoint P s' (len + a) (t + b)), (i_h r), buf1. split; [|split].
      * f_equal. f_equal. cbn [length]. lia.
      * apply (T_end integ P n o o' a f); auto.
      * apply wrote_cons with (buf1 := buf1); auto. intros k Hk. cbn in Hk. lia. apply wrote_nil.
Qed.
