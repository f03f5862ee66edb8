(** C101: times rounded to seconds. *)
From Verif Require Import ClockModel ClockProps SecModel.
From Coq Require Import List Bool Arith ZArith QArith Qround Qabs Lia Lqa ZifyBool ZifyNat.
Import ListNotations.
Open Scope Z_scope.

(** ** specification *)
(** seconds in a number of units, from the attosecond to the second *)
Definition seconds (t : Z * nat) : Q := (inject_Z (fst t) * nth (snd t) [1 # 1000000000000000000; 1 # 1000000000000000; 1 # 1000000000000; 1 # 1000000000; 1 # 1000000; 1 # 1000; 1] 0)%Q.
(** [y] is [x] rounded to [d] digits after the point: a multiple of 10^-d, no other is nearer *)
Definition nearest (d : nat) (x y : Q) : Prop :=
  exists m, (y * inject_Z (10 ^ Z.of_nat d) == inject_Z m)%Q /\ (Qabs (x - y) * inject_Z (10 ^ Z.of_nat d) <= 1 # 2)%Q.

(** ** proofs *)
Lemma per_pos u : (u <= 6)%nat -> 0 < per_second u.
Proof. intros H. do 7 (destruct u as [|u]; [reflexivity|]). lia. Qed.
Lemma seconds_per n u : (u <= 6)%nat -> (seconds (n, u) == inject_Z n / inject_Z (per_second u))%Q.
Proof. intros H. unfold seconds, Qdiv. cbn [fst snd]. do 7 (destruct u as [|u]; [reflexivity|]). lia. Qed.
Lemma ten_pos d : (0 < inject_Z (10 ^ Z.of_nat d))%Q.
Proof. change 0%Q with (inject_Z 0). rewrite <- Zlt_Qlt. apply Z.pow_pos_nonneg; lia. Qed.
Lemma inj_pos z : 0 < z -> (0 < inject_Z z)%Q.
Proof. intros H. change 0%Q with (inject_Z 0). rewrite <- Zlt_Qlt. exact H. Qed.
Lemma scaled a t : (0 < t)%Q -> (Qabs a * t == Qabs (a * t))%Q.
Proof. intros P. rewrite Qabs_Qmult, (Qabs_pos t) by Lqa.lra. reflexivity. Qed.
Lemma round_nearest d x : nearest d x (round_to d x).
Proof.
  unfold nearest, round_to. pose proof (ten_pos d) as P. set (t := inject_Z (10 ^ Z.of_nat d)) in *. exists (rhe (x * t)). assert (N : ~ (t == 0)%Q) by Lqa.lra. split; [field; exact N|].
  rewrite scaled by exact P. assert (E : ((x - inject_Z (rhe (x * t)) / t) * t == x * t - inject_Z (rhe (x * t)))%Q) by (field; exact N). rewrite E. apply Qabs_Qle_condition. apply rhe_half.
Qed.
Lemma nearest_wd d x x' y y' : (x == x')%Q -> (y == y')%Q -> nearest d x y -> nearest d x' y'.
Proof. intros E F (m & A & B). exists m. split; [rewrite <- F; exact A|rewrite <- E, <- F; exact B]. Qed.
Lemma nearest_shift d x y z : nearest d x y -> nearest d (inject_Z z + x) (inject_Z z + y).
Proof.
  intros (m & A & B). exists (z * 10 ^ Z.of_nat d + m). split.
  - rewrite ClockProps.inj_plus, inject_Z_mult, <- A. ring.
  - assert (E : (inject_Z z + x - (inject_Z z + y) == x - y)%Q) by ring. rewrite E. exact B.
Qed.
Lemma isclose_self a b : (a == inject_Z b)%Q -> isclose a b = true.
Proof. intros E. apply isclose_iff. assert (Z0 : (a - inject_Z b == 0)%Q) by Lqa.lra. rewrite Z0. pose proof (Qabs_nonneg (inject_Z b)). change (Qabs 0) with 0%Q. Lqa.lra. Qed.
(** a number of thousandths that is not whole is not close to a whole number, if it is small *)
Lemma far d m : (d <= 3)%nat -> (Qabs (inject_Z m / inject_Z (10 ^ Z.of_nat d)) <= inject_Z (10 ^ Z.of_nat (4 - d) - 1))%Q ->
  isclose (inject_Z m / inject_Z (10 ^ Z.of_nat d)) (rhe (inject_Z m / inject_Z (10 ^ Z.of_nat d))) = true ->
  (inject_Z m / inject_Z (10 ^ Z.of_nat d) == inject_Z (rhe (inject_Z m / inject_Z (10 ^ Z.of_nat d))))%Q.
Proof.
  intros Hd S C. apply isclose_iff in C. pose proof (ten_pos d) as P. set (x := (inject_Z m / inject_Z (10 ^ Z.of_nat d))%Q) in *. set (r := rhe x) in *.
  assert (R : (Qabs (inject_Z r) <= inject_Z (10 ^ Z.of_nat (4 - d) - 1))%Q).
  { apply Qabs_Qle_condition in S as (S1 & S2). apply Qabs_Qle_condition. rewrite <- (rhe_int (10 ^ Z.of_nat (4 - d) - 1)).
    assert (U : r <= rhe (inject_Z (10 ^ Z.of_nat (4 - d) - 1))) by (apply rhe_mono; exact S2).
    assert (L : rhe (inject_Z (- (10 ^ Z.of_nat (4 - d) - 1))) <= r) by (apply rhe_mono; rewrite inject_Z_opp; exact S1).
    rewrite rhe_int in *. rewrite Zle_Qle in U, L. rewrite inject_Z_opp in L. split; assumption. }
  destruct (Z.eq_dec m (r * 10 ^ Z.of_nat d)) as [Em|N].
  { assert (Q1 : (x == inject_Z (r * 10 ^ Z.of_nat d) / inject_Z (10 ^ Z.of_nat d))%Q) by (unfold x; rewrite Em at 1; reflexivity). rewrite Q1, inject_Z_mult. field. Lqa.lra. }
  exfalso. assert (D : (1 <= Qabs (x - inject_Z r) * inject_Z (10 ^ Z.of_nat d))%Q).
  { rewrite scaled by exact P.
    assert (E : ((x - inject_Z r) * inject_Z (10 ^ Z.of_nat d) == inject_Z (m - r * 10 ^ Z.of_nat d))%Q).
    { unfold x, Z.sub. rewrite ClockProps.inj_plus, inject_Z_opp, inject_Z_mult. field. Lqa.lra. }
    rewrite E. change (Qabs (inject_Z (m - r * 10 ^ Z.of_nat d))) with (inject_Z (Z.abs (m - r * 10 ^ Z.of_nat d))). change 1%Q with (inject_Z 1). rewrite <- Zle_Qle. lia. }
  clearbody x r. generalize dependent (Qabs (x - inject_Z r)). generalize dependent (Qabs (inject_Z r)). intros a R q C D. clear S P N.
  do 4 (destruct d as [|d]; [match type of R with (_ <= inject_Z ?e)%Q => let v := eval vm_compute in (inject_Z e) in change (inject_Z e) with v in R end; match type of D with (_ <= _ * inject_Z ?e)%Q => let v := eval vm_compute in (inject_Z e) in change (inject_Z e) with v in D end; Lqa.lra|]). lia.
Qed.
Lemma span_exact d m : (d <= 3)%nat -> (Qabs (inject_Z m / inject_Z (10 ^ Z.of_nat d)) <= inject_Z (10 ^ Z.of_nat (4 - d) - 1))%Q ->
  exists k v, number_to_span 6 (inject_Z m / inject_Z (10 ^ Z.of_nat d)) = Some (k, v) /\ (v <= 6)%nat /\ (seconds (k, v) == inject_Z m / inject_Z (10 ^ Z.of_nat d))%Q.
Proof.
  intros Hd S. pose proof (far d m Hd S) as F. set (x := (inject_Z m / inject_Z (10 ^ Z.of_nat d))%Q) in *. cbn [number_to_span]. destruct (isclose x (rhe x)).
  - exists (rhe x), 6%nat. split; [reflexivity|]. split; [lia|]. rewrite (F eq_refl) at 2. unfold seconds. cbn [fst snd nth]. ring.
  - assert (E : (x * inject_Z (time_scale 5) == inject_Z (m * 10 ^ Z.of_nat (3 - d)))%Q).
    { unfold x. rewrite inject_Z_mult. change (inject_Z (time_scale 5)) with (inject_Z 1000). clear F S x. do 4 (destruct d as [|d]; [cbn; field|]). lia. }
    rewrite (rhe_wd _ _ E), rhe_int, (isclose_self _ _ E). exists (m * 10 ^ Z.of_nat (3 - d)), 5%nat. split; [reflexivity|]. split; [lia|].
    unfold seconds. cbn [fst snd nth]. rewrite <- E. change (inject_Z (time_scale 5)) with 1000%Q. ring.
Qed.
(** ** Dates with up to three digits: the nearest multiple, exactly *)
Theorem C101_date d n u : (d <= 3)%nat -> (u <= 6)%nat -> exists t, time_as_seconds d (Date n u) = Some (Time t) /\ (snd t <= 6)%nat /\ nearest d (seconds (n, u)) (seconds t).
Proof.
  intros Hd Hu. cbn [time_as_seconds]. unfold datetime_as_seconds. cbv zeta. pose proof (per_pos u Hu) as P. pose proof (inj_pos _ P) as PQ. set (e := n / per_second u).
  set (x := (inject_Z (n - e * per_second u) / inject_Z (per_second u))%Q).
  assert (B : 0 <= n - e * per_second u < per_second u) by (unfold e; pose proof (Z.div_mod n (per_second u)); pose proof (Z.mod_pos_bound n (per_second u) P); nia).
  assert (X : (0 <= x <= 1)%Q).
  { unfold x. destruct B as (B1 & B2). apply Z.lt_le_incl in B2. rewrite Zle_Qle in B1, B2. change (inject_Z 0) with 0%Q in B1. split; [apply Qle_shift_div_l; [exact PQ|]|apply Qle_shift_div_r; [exact PQ|]]; Lqa.lra. }
  assert (S : (Qabs (round_to d x) <= inject_Z (10 ^ Z.of_nat (4 - d) - 1))%Q).
  { pose proof (ten_pos d) as T. apply Qle_trans with 1%Q.
    - unfold round_to. apply Qabs_Qle_condition. set (q := inject_Z (10 ^ Z.of_nat d)) in *.
      assert (U : rhe (x * q) <= 10 ^ Z.of_nat d) by (rewrite <- (rhe_int (10 ^ Z.of_nat d)); apply rhe_mono; fold q; Lqa.nra).
      assert (L : 0 <= rhe (x * q)) by (rewrite <- (rhe_int 0); apply rhe_mono; change (inject_Z 0) with 0%Q; Lqa.nra).
      rewrite Zle_Qle in U, L. fold q in U. change (inject_Z 0) with 0%Q in L. split; [apply Qle_shift_div_l|apply Qle_shift_div_r]; try exact T; Lqa.lra.
    - do 4 (destruct d as [|d]; [discriminate|]). lia. }
  destruct (span_exact d _ Hd S) as (k & v & E & V & K). fold (round_to d x) in E, K. fold x. rewrite E. exists (e * per_second v + k, v). split; [reflexivity|]. split; [exact V|].
  apply (nearest_wd d (inject_Z e + x) _ (inject_Z e + round_to d x) _); [| |apply nearest_shift, round_nearest].
  - rewrite seconds_per by exact Hu. unfold x, Z.sub. rewrite ClockProps.inj_plus, inject_Z_opp, inject_Z_mult. field. Lqa.lra.
  - rewrite <- K, !seconds_per by exact V. rewrite ClockProps.inj_plus, inject_Z_mult. field. pose proof (inj_pos _ (per_pos v V)). Lqa.lra.
Qed.
Print Assumptions C101_date.
(** ** Spans to whole seconds: always; with one to three digits: up to 999, 99 and 9 seconds *)
Theorem C101_span d n u : (d <= 3)%nat -> (u <= 6)%nat -> d = O \/ (Qabs (seconds (n, u)) <= inject_Z (10 ^ Z.of_nat (4 - d) - 1))%Q ->
  exists t, time_as_seconds d (Span n u) = Some (Time t) /\ (snd t <= 6)%nat /\ nearest d (seconds (n, u)) (seconds t).
Proof.
  intros Hd Hu H. cbn [time_as_seconds]. unfold timedelta_as_seconds. pose proof (seconds_per n u Hu) as E. set (x := (inject_Z n / inject_Z (per_second u))%Q) in *. rewrite E in H.
  assert (W : exists k v, number_to_span 6 (round_to d x) = Some (k, v) /\ (v <= 6)%nat /\ (seconds (k, v) == round_to d x)%Q).
  { destruct H as [->|H].
    - unfold round_to. change (inject_Z (10 ^ Z.of_nat 0)) with 1%Q. set (m := rhe (x * 1)). assert (M : (inject_Z m / 1 == inject_Z m)%Q) by field.
      exists m, 6%nat. split; [cbn [number_to_span]; rewrite (rhe_wd _ _ M), rhe_int, (isclose_self _ _ M); reflexivity|]. split; [lia|]. rewrite M. unfold seconds. cbn [fst snd nth]. ring.
    - apply span_exact; [exact Hd|]. pose proof (ten_pos d) as T. apply Qabs_Qle_condition in H as (H1 & H2). set (w := 10 ^ Z.of_nat (4 - d) - 1) in *. set (q := inject_Z (10 ^ Z.of_nat d)) in *.
      assert (U : rhe (x * q) <= w * 10 ^ Z.of_nat d) by (rewrite <- (rhe_int (w * _)); apply rhe_mono; rewrite inject_Z_mult; fold q; Lqa.nra).
      assert (L : - w * 10 ^ Z.of_nat d <= rhe (x * q)) by (rewrite <- (rhe_int (- w * _)); apply rhe_mono; rewrite inject_Z_mult, inject_Z_opp; fold q; Lqa.nra).
      rewrite Zle_Qle in U, L. rewrite inject_Z_mult in U, L. rewrite inject_Z_opp in L. fold q in U, L. apply Qabs_Qle_condition. split; [apply Qle_shift_div_l|apply Qle_shift_div_r]; try exact T; assumption. }
  destruct W as (k & v & A & V & K). rewrite A. exists (k, v). split; [reflexivity|]. split; [exact V|]. apply (nearest_wd d x _ (round_to d x) _); [symmetry; exact E|symmetry; exact K|apply round_nearest].
Qed.
Print Assumptions C101_span.
(** ** Numbers *)
Theorem C101_number d x : exists y, time_as_seconds d (Number x) = Some (Num y) /\ nearest d x y.
Proof. exists (round_to d x). split; [reflexivity|apply round_nearest]. Qed.
Print Assumptions C101_number.
(** ** Refuted: spans of 5001 s or more have no digits after the point, however many are asked for *)
Theorem C101_span_refuted d n u : (u <= 6)%nat -> (5001 <= Qabs (seconds (n, u)))%Q -> exists k, time_as_seconds d (Span n u) = Some (Time (k, 6%nat)).
Proof.
  intros Hu H. cbn [time_as_seconds]. unfold timedelta_as_seconds. rewrite seconds_per in H by exact Hu. set (x := (inject_Z n / inject_Z (per_second u))%Q) in *.
  destruct (round_nearest d x) as (m & _ & B). set (y := round_to d x) in *. exists (rhe y). rewrite C88_large_refuted; [reflexivity|].
  assert (T : (1 <= inject_Z (10 ^ Z.of_nat d))%Q) by (change 1%Q with (inject_Z 1); rewrite <- Zle_Qle; pose proof (Z.pow_pos_nonneg 10 (Z.of_nat d)); lia).
  pose proof (Qabs_nonneg (x - y)) as N. assert (D : (Qabs (x - y) <= 1)%Q) by Lqa.nra. pose proof (Qabs_triangle (x - y) y) as R. assert (E : (x - y + y == x)%Q) by ring. rewrite E in R. Lqa.lra.
Qed.
Print Assumptions C101_span_refuted.
(** ** Refuted for dates with four digits: 0.9999 s after any second become the next second *)
Theorem C101_four_digits_refuted s : time_as_seconds 4 (Date (s * 10000 * 100 + 999900) 4) = Some (Time (s + 1, 6%nat)) /\ ~ nearest 4 (seconds (s * 10000 * 100 + 999900, 4%nat)) (seconds (s + 1, 6%nat)).
Proof.
  split.
  - cbn [time_as_seconds]. unfold datetime_as_seconds. cbv zeta. change (per_second 4) with 1000000. replace ((s * 10000 * 100 + 999900) / 1000000) with s by (apply (Z.div_unique _ _ _ 999900); lia).
    replace (s * 10000 * 100 + 999900 - s * 1000000) with 999900 by lia.
    assert (E : number_to_span 6 (round_to 4 (inject_Z 999900 / inject_Z 1000000)) = Some (1, 6%nat)) by (vm_compute; reflexivity). rewrite E. change (per_second 6) with 1. rewrite Z.mul_1_r. reflexivity.
  - intros (m & _ & B). unfold seconds in B. cbn [fst snd nth] in B. rewrite !ClockProps.inj_plus, !inject_Z_mult in B.
    match type of B with (Qabs ?e * _ <= _)%Q => assert (E : (e == - (1 # 10000))%Q) end. { change (inject_Z 10000) with 10000%Q. change (inject_Z 100) with 100%Q. change (inject_Z 999900) with 999900%Q. change (inject_Z 1) with 1%Q. ring. }
    rewrite E in B. vm_compute in B. apply B. reflexivity.
Qed.
Print Assumptions C101_four_digits_refuted.

(** ** the hypotheses can be met *)
Example date1 : time_as_seconds 1 (Date 1277287845449999999 3) = Some (Time (1277287845400, 5%nat)). Proof. vm_compute. reflexivity. Qed.
Example date_before : time_as_seconds 1 (Date (-140) 5) = Some (Time (-100, 5%nat)). Proof. vm_compute. reflexivity. Qed.
Example span1 : time_as_seconds 1 (Span 998460 5) = Some (Time (998500, 5%nat)) /\ (Qabs (seconds (998460%Z, 5%nat)) <= inject_Z (10 ^ Z.of_nat (4 - 1) - 1))%Q.
Proof. split; vm_compute; [reflexivity|discriminate]. Qed.
Example span_large : time_as_seconds 1 (Span 7200400 5) = Some (Time (7200, 6%nat)). Proof. vm_compute. reflexivity. Qed.
