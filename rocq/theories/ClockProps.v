(** C88: numbers and text as times, even series of times, times as text. *)
From Verif Require Import ClockModel.
From Coq Require Import Ascii List Bool Arith ZArith QArith Qround Qabs Lia Lqa ZifyBool ZifyNat.
Import ListNotations.
Open Scope Z_scope.

(** ** rounding *)
Lemma inj_plus (a b : Z) : (inject_Z (a + b) == inject_Z a + inject_Z b)%Q.
Proof. rewrite inject_Z_plus. reflexivity. Qed.
Lemma inj_eq_Z (a b : Z) : (inject_Z a == inject_Z b)%Q -> a = b.
Proof. unfold Qeq, inject_Z. cbn. lia. Qed.
Lemma rhe_half q : (- (1 # 2) <= q - inject_Z (rhe q) <= 1 # 2)%Q.
Proof.
  unfold rhe. cbv zeta. pose proof (Qfloor_le (q + (1 # 2))) as A. pose proof (Qlt_floor (q + (1 # 2))) as B. set (f := Qfloor (q + (1 # 2))) in *. rewrite inj_plus in B. change (inject_Z 1) with 1%Q in B.
  destruct (Qeq_bool (q + (1 # 2)) (inject_Z f)) eqn:E; cbn [andb]; [|split; Lqa.lra]. destruct (Z.odd f); [|split; Lqa.lra]. apply Qeq_bool_iff in E. unfold Z.sub. rewrite inj_plus. change (inject_Z (Z.opp 1)) with (-(1))%Q. split; Lqa.lra.
Qed.
Lemma between (a b : Z) : (inject_Z a - inject_Z b < 1)%Q -> a <= b.
Proof. intros H. assert (L : (inject_Z a < inject_Z (b + 1))%Q) by (rewrite inj_plus; change (inject_Z 1) with 1%Q; Lqa.lra). rewrite <- Zlt_Qlt in L. lia. Qed.
Lemma rhe_int z : rhe (inject_Z z) = z.
Proof. pose proof (rhe_half (inject_Z z)) as H. assert (z <= rhe (inject_Z z)) by (apply between; Lqa.lra). assert (rhe (inject_Z z) <= z) by (apply between; Lqa.lra). lia. Qed.
Lemma rhe_wd q q' : (q == q')%Q -> rhe q = rhe q'.
Proof.
  intros E. unfold rhe. cbv zeta. assert (F : Qfloor (q + (1 # 2)) = Qfloor (q' + (1 # 2))) by (rewrite E; reflexivity). rewrite F. assert (B : Qeq_bool (q + (1 # 2)) (inject_Z (Qfloor (q' + (1 # 2)))) = Qeq_bool (q' + (1 # 2)) (inject_Z (Qfloor (q' + (1 # 2))))) by (rewrite E; reflexivity). rewrite B. reflexivity.
Qed.
Lemma rhe_mono q q' : (q <= q')%Q -> rhe q <= rhe q'.
Proof.
  intros H. destruct (Qlt_le_dec q q') as [L|L]; [|assert (q == q')%Q as E by Lqa.lra; rewrite (rhe_wd _ _ E); lia].
  unfold rhe. cbv zeta. set (f := Qfloor (q + (1 # 2))). set (f' := Qfloor (q' + (1 # 2))). assert (M : f <= f') by (apply Qfloor_resp_le; Lqa.lra).
  destruct (Qeq_bool (q' + (1 # 2)) (inject_Z f') && Z.odd f') eqn:E'; [|destruct (Qeq_bool (q + (1 # 2)) (inject_Z f) && Z.odd f); lia].
  apply andb_prop in E' as (E' & _). apply Qeq_bool_iff in E'. pose proof (Qfloor_le (q + (1 # 2))) as A. fold f in A. assert (f < f') by (rewrite Zlt_Qlt; Lqa.lra). destruct (Qeq_bool (q + (1 # 2)) (inject_Z f) && Z.odd f); lia.
Qed.
Lemma isclose_iff a b : isclose a b = true <-> (Qabs (a - inject_Z b) <= (1 # 1000000000000000000) + (1 # 10000) * Qabs (inject_Z b))%Q.
Proof. apply Qle_bool_iff. Qed.

(** ** time spans *)
(** attoseconds in a unit, from the attosecond to the hour *)
Definition size (i : nat) : Q := nth i [1; 10 ^ 3; 10 ^ 6; 10 ^ 9; 10 ^ 12; 10 ^ 15; 10 ^ 18; 60 * 10 ^ 18; 3600 * 10 ^ 18]%Q 0%Q.
Lemma size_step i : (i < 8)%nat -> (size (S i) == size i * inject_Z (time_scale i))%Q.
Proof. intros H. do 8 (destruct i as [|i]; [reflexivity|]). lia. Qed.
Lemma size_pos i : (i < 9)%nat -> (0 < size i)%Q.
Proof. intros H. do 9 (destruct i as [|i]; [reflexivity|]). lia. Qed.
(** A number of units becomes a whole number of units as small as needed to be right to one part in ten thousand. *)
Theorem C88_number : forall idx t k j, (idx < 9)%nat -> number_to_span idx t = Some (k, j) ->
  (j <= idx)%nat /\ (Qabs (t * size idx - inject_Z k * size j) <= ((1 # 1000000000000000000) + (1 # 10000) * Qabs (inject_Z k)) * size j)%Q.
Proof.
  assert (Base : forall idx t, (idx < 9)%nat -> isclose t (rhe t) = true -> (Qabs (t * size idx - inject_Z (rhe t) * size idx) <= ((1 # 1000000000000000000) + (1 # 10000) * Qabs (inject_Z (rhe t))) * size idx)%Q).
  { intros idx t Hi C. apply isclose_iff in C. pose proof (size_pos idx Hi) as P. set (s := size idx) in *. assert (R : (t * s - inject_Z (rhe t) * s == (t - inject_Z (rhe t)) * s)%Q) by ring. rewrite R, Qabs_Qmult, (Qabs_pos s) by Lqa.lra. apply Qmult_le_compat_r; [exact C|Lqa.lra]. }
  induction idx as [|i IH]; intros t k j Hi; cbn [number_to_span]; destruct (isclose t (rhe t)) eqn:C.
  - intros E. injection E as <- <-. split; [lia|apply Base; assumption].
  - discriminate.
  - intros E. injection E as <- <-. split; [lia|apply Base; assumption].
  - intros E. destruct (IH _ k j ltac:(lia) E) as (L & B). split; [lia|]. rewrite (size_step i) by lia. assert (R : (t * (size i * inject_Z (time_scale i)) == t * inject_Z (time_scale i) * size i)%Q) by ring. rewrite R. exact B.
Qed.
Print Assumptions C88_number.
(** Whole numbers are kept. *)
Theorem C88_whole : forall idx z, number_to_span idx (inject_Z z) = Some (z, idx).
Proof.
  intros idx z. assert (C : isclose (inject_Z z) (rhe (inject_Z z)) = true).
  { apply isclose_iff. rewrite rhe_int. assert (Z0 : (inject_Z z - inject_Z z == 0)%Q) by ring. rewrite Z0. pose proof (Qabs_nonneg (inject_Z z)). change (Qabs 0) with 0%Q. Lqa.lra. }
  destruct idx; cbn [number_to_span]; rewrite C, rhe_int; reflexivity.
Qed.
Print Assumptions C88_whole.
Lemma close_large t : (5000 <= Qabs t)%Q -> isclose t (rhe t) = true.
Proof.
  intros H. apply isclose_iff. pose proof (rhe_half t) as (A & B). assert (D : (Qabs (t - inject_Z (rhe t)) <= 1 # 2)%Q) by (apply Qabs_Qle_condition; split; assumption).
  assert (L : (5000 <= Qabs (inject_Z (rhe t)))%Q).
  { destruct (Qlt_le_dec t 0) as [N|N].
    - rewrite Qabs_neg in H by Lqa.lra. assert (M : rhe t <= rhe (inject_Z (-5000))) by (apply rhe_mono; change (inject_Z (-5000)) with (-(5000))%Q; Lqa.lra). rewrite rhe_int in M. rewrite Zle_Qle in M. rewrite Qabs_neg by (eapply Qle_trans; [exact M|discriminate]). change (inject_Z (-5000)) with (-(5000))%Q in M. Lqa.lra.
    - rewrite Qabs_pos in H by exact N. assert (M : rhe (inject_Z 5000) <= rhe t) by (apply rhe_mono; change (inject_Z 5000) with 5000%Q; Lqa.lra). rewrite rhe_int in M. rewrite Zle_Qle in M. change (inject_Z 5000) with 5000%Q in M. rewrite Qabs_pos by Lqa.lra. exact M. }
  Lqa.lra.
Qed.
(** Refuted: of a number of 5000 units or more nothing after the point is kept: 7200.4 s are 7200 s. *)
Theorem C88_large_refuted : forall idx t, (5000 <= Qabs t)%Q -> number_to_span idx t = Some (rhe t, idx).
Proof. intros idx t H. destruct idx; cbn [number_to_span]; rewrite (close_large t H); reflexivity. Qed.
Print Assumptions C88_large_refuted.
(** Numbers of at least 5000 attoseconds are never refused. *)
Theorem C88_never_refused : forall idx t, (idx < 9)%nat -> (5000 <= Qabs t * size idx)%Q -> number_to_span idx t <> None.
Proof.
  induction idx as [|i IH]; intros t Hi H; cbn [number_to_span]; destruct (isclose t (rhe t)) eqn:C; try discriminate.
  - rewrite (close_large t) in C by (change (size 0) with 1%Q in H; Lqa.lra). discriminate.
  - apply IH; [lia|]. rewrite size_step in H by lia. rewrite Qabs_Qmult. rewrite (Qabs_pos (inject_Z (time_scale i))); [|unfold time_scale; destruct (i <? 6)%nat; discriminate]. Lqa.nra.
Qed.
Print Assumptions C88_never_refused.
(** Hours, minutes and seconds between colons; more than three parts are refused. *)
Theorem C88_text : forall h m s, text_to_span (map inject_Z [h; m; s]) = Some (h * 3600 + m * 60 + s, 6%nat) /\ text_to_span (map inject_Z [m; s]) = Some (m * 60 + s, 6%nat) /\ text_to_span [inject_Z s] = Some (s, 6%nat) /\
  forall parts, (3 < length parts)%nat -> text_to_span parts = None.
Proof.
  assert (W : forall t z, (t == inject_Z z)%Q -> number_to_span 6 t = Some (z, 6%nat)).
  { intros t z E. cbn [number_to_span]. rewrite (rhe_wd _ _ E), rhe_int. replace (isclose t z) with true; [reflexivity|]. symmetry. apply isclose_iff. assert (Z0 : (t - inject_Z z == 0)%Q) by Lqa.lra. rewrite Z0. pose proof (Qabs_nonneg (inject_Z z)). change (Qabs 0) with 0%Q. Lqa.lra. }
  intros h m s. repeat split.
  - apply W. cbn [map rev app zip_sum]. rewrite !inj_plus, !inject_Z_mult. change (inject_Z 3600) with 3600%Q. change (inject_Z 60) with 60%Q. ring.
  - apply W. cbn [map rev app zip_sum]. rewrite inj_plus, inject_Z_mult. change (inject_Z 60) with 60%Q. ring.
  - apply W. cbn [map rev app zip_sum]. ring.
  - intros parts H. unfold text_to_span. destruct (Nat.ltb_spec 3 (length parts)); [reflexivity|lia].
Qed.
Print Assumptions C88_text.
Example C88_number_case : number_to_span 6 (1 # 3) = Some (333333, 4%nat) /\ number_to_span 6 (72004 # 10) = Some (7200, 6%nat) /\ number_to_span 6 (25 # 10) = Some (2500, 5%nat) /\ text_to_span [1; 2; 7 # 2]%Q = Some (3723500, 5%nat) /\ number_to_span 0 (1 # 3) = None.
Proof. vm_compute. repeat split. Qed.

(** ** series *)
Lemma series_nth conv start stop n e i : (i < n)%nat -> nth i (series conv start stop n e) 0 =
  let div := Z.of_nat n - (if e then 1 else 0) in rhe (if (div <=? 0) then conv start else if e && (i =? n - 1)%nat then conv stop else conv start + inject_Z (Z.of_nat i) * ((conv stop - conv start) / inject_Z div))%Q.
Proof. intros H. unfold series. match goal with |- nth i (map ?f _) 0 = _ => rewrite (nth_indep _ 0 (f 0%nat)) by (rewrite map_length, seq_length; exact H); rewrite (map_nth f), seq_nth by exact H end. reflexivity. Qed.
(** The exact place of time number i. *)
Definition even_place (start stop : Z) (n : nat) (endpoint : bool) (i : nat) : Q := (inject_Z start + inject_Z (Z.of_nat i) * (inject_Z (stop - start) / inject_Z (Z.of_nat n - (if endpoint then 1 else 0))))%Q.
Lemma div_pos (n : nat) (e : bool) : ((if e then 1 else 0) < n)%nat -> (0 < inject_Z (Z.of_nat n - (if e then 1 else 0)))%Q.
Proof. intros H. change 0%Q with (inject_Z 0). rewrite <- Zlt_Qlt. destruct e; lia. Qed.
Lemma series_place start stop n (e : bool) i : ((if e then 1 else 0) < n)%nat -> (i < n)%nat -> nth i (series inject_Z start stop n e) 0 = rhe (even_place start stop n e i).
Proof.
  intros Hn Hi. rewrite series_nth by exact Hi. cbv zeta. pose proof (div_pos n e Hn) as P. destruct (Z.leb_spec (Z.of_nat n - (if e then 1 else 0)) 0) as [L|L]; [destruct e; lia|]. apply rhe_wd. unfold even_place. assert (SS : (inject_Z (stop - start) == inject_Z stop - inject_Z start)%Q) by (unfold Z.sub; rewrite inj_plus, inject_Z_opp; ring). rewrite SS.
  destruct (e && (i =? n - 1)%nat) eqn:B; [|reflexivity]. apply andb_prop in B as (-> & B). apply Nat.eqb_eq in B. replace (Z.of_nat i) with (Z.of_nat n - 1) by lia. field. Lqa.lra.
Qed.
(** As many times as asked for, from the first to the last, each the whole number next to its even place, in order. *)
Theorem C88_series : forall start stop n (endpoint : bool), ((if endpoint then 1 else 0) < n)%nat -> let s := series inject_Z start stop n endpoint in
  length s = n /\ nth 0 s 0 = start /\ (endpoint = true -> nth (n - 1) s 0 = stop) /\
  (forall i, (i < n)%nat -> (Qabs (even_place start stop n endpoint i - inject_Z (nth i s 0%Z)) <= 1 # 2)%Q) /\
  (start <= stop -> forall i j, (i <= j < n)%nat -> nth i s 0 <= nth j s 0).
Proof.
  intros start stop n e Hn s. pose proof (div_pos n e Hn) as P. split; [unfold s, series; rewrite map_length, seq_length; reflexivity|]. split; [|split; [|split]].
  - unfold s. rewrite series_place by (try exact Hn; lia). rewrite (rhe_wd _ (inject_Z start)); [apply rhe_int|]. unfold even_place. change (inject_Z (Z.of_nat 0)) with 0%Q. ring.
  - intros ->. unfold s. rewrite series_nth by lia. cbv zeta. destruct (Z.leb_spec (Z.of_nat n - 1) 0) as [L|L]; [lia|]. rewrite Nat.eqb_refl. cbn [andb]. apply rhe_int.
  - intros i Hi. unfold s. rewrite series_place by assumption. apply Qabs_Qle_condition. apply rhe_half.
  - intros Hs i j Hij. unfold s. rewrite !series_place by (try exact Hn; lia). apply rhe_mono. unfold even_place. set (d := inject_Z (Z.of_nat n - (if e then 1 else 0))) in *.
    assert (D : (0 <= inject_Z (stop - start) / d)%Q) by (apply Qle_shift_div_l; [exact P|]; assert (Z0 : (0 * d == 0)%Q) by ring; rewrite Z0; change 0%Q with (inject_Z 0); rewrite <- Zle_Qle; lia).
    assert (I : (inject_Z (Z.of_nat i) <= inject_Z (Z.of_nat j))%Q) by (rewrite <- Zle_Qle; lia). pose proof (Qmult_le_compat_r _ _ _ I D). Lqa.lra.
Qed.
Print Assumptions C88_series.
(** The conversion to floats keeps numbers up to 2^53. *)
Theorem C88_double : forall z, Z.abs z < 2 ^ 53 -> to_double z = inject_Z z.
Proof.
  intros z H. unfold to_double. destruct (Z.leb_spec (Z.log2 (Z.abs z) - 52) 0) as [L|L]; [reflexivity|]. exfalso. destruct (Z.eq_dec (Z.abs z) 0) as [E|E]; [rewrite E in L; cbn in L; lia|].
  assert (Z.log2 (Z.abs z) < 53) by (apply Z.log2_lt_pow2; lia). lia.
Qed.
Print Assumptions C88_double.
(** Refuted: beyond that, as for nanoseconds since 1970 from May 1970 on, no odd number is kept, so that the series does not begin with its first time. *)
Theorem C88_nanoseconds_refuted : forall start stop n endpoint, 2 ^ 53 <= start -> Z.odd start = true -> (0 < n)%nat -> (endpoint = true -> 1 < n)%nat -> nth 0 (series to_double start stop n endpoint) 0 <> start.
Proof.
  intros start stop n e Hs Ho Hn He. rewrite series_nth by exact Hn. cbv zeta.
  assert (B : e && (0 =? n - 1)%nat = false) by (destruct e; [specialize (He eq_refl); cbn [andb]; lia|reflexivity]).
  assert (V : rhe (if (Z.of_nat n - (if e then 1 else 0) <=? 0) then to_double start else if e && (0 =? n - 1)%nat then to_double stop else to_double start + inject_Z (Z.of_nat 0) * ((to_double stop - to_double start) / inject_Z (Z.of_nat n - (if e then 1 else 0))))%Q = rhe (to_double start)).
  { rewrite B. destruct (_ <=? 0); [reflexivity|]. apply rhe_wd. change (inject_Z (Z.of_nat 0)) with 0%Q. ring. }
  rewrite V. unfold to_double. rewrite Z.abs_eq by lia. assert (L : 53 <= Z.log2 start) by (apply Z.log2_le_pow2; lia). destruct (Z.leb_spec (Z.log2 start - 52) 0) as [Q|Q]; [lia|]. rewrite rhe_int.
  intros E. rewrite <- E in Ho at 1. rewrite Z.odd_mul in Ho. apply andb_prop in Ho as (_ & Ho). replace (Z.log2 start - 52) with (Z.succ (Z.log2 start - 53)) in Ho by lia. rewrite Z.pow_succ_r, Z.odd_mul in Ho by lia. discriminate.
Qed.
Print Assumptions C88_nanoseconds_refuted.
Example C88_series_case : series inject_Z 10 20 4 true = [10; 13; 17; 20] /\ series inject_Z 10 20 4 false = [10; 12; 15; 18] /\ nth 0 (series to_double 1479254400000000001 1479254400000001001 3 true) 0 = 1479254400000000000.
Proof. vm_compute. repeat split. Qed.

(** ** text *)
Lemma digit_code d : 0 <= d < 10 -> nat_of_ascii (digit d) = (48 + Z.to_nat d)%nat.
Proof. intros H. unfold digit. apply nat_ascii_embedding. lia. Qed.
Lemma number_app t c : number_of (t ++ [c]) = 10 * number_of t + (Z.of_nat (nat_of_ascii c) - 48).
Proof. unfold number_of. rewrite fold_left_app. reflexivity. Qed.
Lemma number_padded n : forall z, 0 <= z -> number_of (padded n z) = z mod 10 ^ Z.of_nat n.
Proof.
  induction n as [|n IH]; intros z Hz; [rewrite Z.mod_1_r; reflexivity|]. cbn [padded]. pose proof (Z.mod_pos_bound z 10 ltac:(lia)). rewrite number_app, IH by (apply Z.div_pos; lia). rewrite digit_code by assumption.
  rewrite Nat2Z.inj_succ, Z.pow_succ_r by lia. rewrite (Zmod_recombine z 10 (10 ^ Z.of_nat n)) || rewrite Z.rem_mul_r by lia. lia.
Qed.
Lemma padded_length n : forall z, length (padded n z) = n.
Proof. induction n as [|n IH]; intros z; [reflexivity|]. cbn [padded]. rewrite app_length, IH. cbn [length]. lia. Qed.
Lemma padded_digits n : forall z, forallb is_digit (padded n z) = true.
Proof. induction n as [|n IH]; intros z; [reflexivity|]. cbn [padded]. rewrite forallb_app, IH. cbn [forallb andb]. pose proof (Z.mod_pos_bound z 10 ltac:(lia)). unfold is_digit. rewrite digit_code by assumption. lia. Qed.
Lemma number_decimal fuel : forall z, 0 <= z -> (Z.to_nat z < fuel)%nat -> number_of (decimal fuel z) = z.
Proof.
  induction fuel as [|k IH]; intros z Hz Hf; [lia|]. cbn [decimal]. destruct (Z.ltb_spec z 10) as [L|L]; [unfold number_of; cbn [fold_left]; rewrite digit_code by lia; lia|].
  pose proof (Z.mod_pos_bound z 10 ltac:(lia)). pose proof (Z.div_mod z 10 ltac:(lia)). assert (z / 10 < z) by (apply Z.div_lt; lia). rewrite number_app, IH by (try (apply Z.div_pos; lia); lia). rewrite digit_code by assumption. lia.
Qed.
Lemma number_signed d : 0 <= d -> number_of (signed d) = d.
Proof. intros H. unfold signed. destruct (Z.ltb_spec d 0); [lia|]. apply number_decimal; lia. Qed.
(** A clock: two digits each of the hour, the minute and the second. *)
Definition shows_clock (t : list ascii) (seconds : Z) : Prop := exists h m s, t = h ++ ":"%char :: m ++ ":"%char :: s /\ length h = 2%nat /\ length m = 2%nat /\ length s = 2%nat /\ forallb is_digit (h ++ m ++ s) = true /\
  0 <= number_of h < 24 /\ 0 <= number_of m < 60 /\ 0 <= number_of s < 60 /\ number_of h * 3600 + number_of m * 60 + number_of s = seconds.
Lemma hms_clock us : shows_clock (hms us) ((us / 1000000) mod 86400).
Proof.
  unfold hms. change USEC with 1000000. set (s := (us / 1000000) mod 86400). pose proof (Z.mod_pos_bound (us / 1000000) 86400 ltac:(lia)) as B. fold s in B.
  pose proof (Z.div_mod s 3600 ltac:(lia)) as E1. pose proof (Z.mod_pos_bound s 3600 ltac:(lia)) as B1. pose proof (Z.div_mod s 60 ltac:(lia)) as E2. pose proof (Z.mod_pos_bound s 60 ltac:(lia)) as B2. pose proof (Z.div_mod (s / 60) 60 ltac:(lia)) as E3. pose proof (Z.mod_pos_bound (s / 60) 60 ltac:(lia)) as B3.
  assert (D : s / 60 / 60 = s / 3600) by (rewrite Z.div_div by lia; reflexivity).
  exists (padded 2 (s / 3600)), (padded 2 (s / 60 mod 60)), (padded 2 (s mod 60)). rewrite !padded_length, !forallb_app, !padded_digits, !number_padded by lia. change (10 ^ Z.of_nat 2) with 100. rewrite (Z.mod_small (s / 3600) 100), (Z.mod_small (s / 60 mod 60) 100), (Z.mod_small (s mod 60) 100) by lia. repeat split; try reflexivity; lia.
Qed.
(** 'hms': the time of day. *)
Theorem C88_hms : forall us, 0 <= us < 86400 * 1000000 -> shows_clock (format_hms false us) (us / 1000000).
Proof. intros us H. cbn [format_hms app]. pose proof (hms_clock us) as C. rewrite Z.mod_small in C by (split; [apply Z.div_pos; lia|apply Z.div_lt_upper_bound; lia]). exact C. Qed.
Print Assumptions C88_hms.
(** Refuted: whole days are left out, so a time of 25:00:15 is 01:00:15 and not as documented. *)
Theorem C88_hms_refuted : forall us k, format_hms false (us + k * (86400 * 1000000)) = format_hms false us.
Proof. intros us k. cbn [format_hms app]. unfold hms. change USEC with 1000000. replace (us + k * (86400 * 1000000)) with (us + (k * 86400) * 1000000) by lia. rewrite Z.div_add by lia. rewrite Z.mod_add by lia. reflexivity. Qed.
Print Assumptions C88_hms_refuted.
Definition days_word : list ascii := [" "; "d"; "a"; "y"; "s"; " "]%char.
Definition day_word : list ascii := [" "; "d"; "a"; "y"]%char.
(** 'dhms': the days and the time of day. *)
Theorem C88_dhms : forall us, 0 <= us -> us / (86400 * 1000000) <> 1 -> exists d c, format_hms true us = d ++ days_word ++ c /\ number_of d = us / (86400 * 1000000) /\ shows_clock c (us / 1000000 - 86400 * number_of d).
Proof.
  intros us H N. assert (Qd : Z.quot us DAY = us / (86400 * 1000000)) by (apply Z.quot_div_nonneg; [exact H|reflexivity]). set (d := us / (86400 * 1000000)) in *. assert (Hd : 0 <= d) by (apply Z.div_pos; lia).
  exists (signed d), (hms us). unfold format_hms, days_text. rewrite Qd. destruct (Z.eqb_spec d 1); [contradiction|]. split; [rewrite <- app_assoc; reflexivity|]. assert (Nd : number_of (signed d) = d) by (apply number_signed; exact Hd). split; [exact Nd|]. rewrite Nd.
  pose proof (hms_clock us) as C. replace (us / 1000000 - 86400 * d) with ((us / 1000000) mod 86400); [exact C|]. unfold d. rewrite Z.mod_eq by lia. rewrite Z.div_div by lia. reflexivity.
Qed.
Print Assumptions C88_dhms.
(** Refuted: for one day the blank before the clock is missing; before 1970, that is for negative times, the days are rounded up and the clock is not that of the time. *)
Theorem C88_dhms_refuted : forall u, (0 <= u < 86400 * 1000000 -> format_hms true (86400 * 1000000 + u) = "1"%char :: day_word ++ hms u) /\
  (0 < u < 86400 * 1000000 -> format_hms true (- u) = "0"%char :: days_word ++ hms (86400 * 1000000 - u)).
Proof.
  intros u. split; intros H.
  - unfold format_hms, days_text. assert (Qd : Z.quot (86400 * 1000000 + u) DAY = 1) by (rewrite Z.quot_div_nonneg by (try reflexivity; lia); symmetry; apply (Z.div_unique _ _ _ u); [left; exact H|unfold DAY, USEC; lia]). rewrite Qd. cbn [Z.eqb Pos.eqb].
    pose proof (C88_hms_refuted u 1) as P. cbn [format_hms app] in P. replace (86400 * 1000000 + u) with (u + 1 * (86400 * 1000000)) by lia. rewrite P. reflexivity.
  - unfold format_hms, days_text. assert (Qd : Z.quot (- u) DAY = 0) by (rewrite Z.quot_opp_l by discriminate; rewrite Z.quot_small by (split; [lia|unfold DAY, USEC; lia]); reflexivity). rewrite Qd. cbn [Z.eqb].
    pose proof (C88_hms_refuted (- u) 1) as P. cbn [format_hms app] in P. replace (86400 * 1000000 - u) with (- u + 1 * (86400 * 1000000)) by lia. rewrite P. reflexivity.
Qed.
Print Assumptions C88_dhms_refuted.

(** ** fractions *)
Definition no_six (t : list ascii) : Prop := forall k, (k + 6 <= length t)%nat -> forallb is_digit (firstn 6 (skipn k t)) = false.
Lemma put_here n six rest : length six = 6%nat -> forallb is_digit six = true -> put_fraction n (six ++ rest) = fraction n (number_of six) ++ rest.
Proof.
  intros L D. do 7 (destruct six as [|?c six]; cbn in L; try lia). cbn [app put_fraction]. cbn [firstn skipn length]. cbn [forallb] in D |- *. rewrite D. reflexivity.
Qed.
Lemma put_skip n c r : forallb is_digit (firstn 6 (c :: r)) = false -> put_fraction n (c :: r) = c :: put_fraction n r.
Proof. intros H. cbn [put_fraction]. rewrite H. reflexivity. Qed.
Lemma window_bad c l r : is_digit c = false -> (length l < 6)%nat -> forallb is_digit (firstn 6 (l ++ c :: r)) = false.
Proof.
  intros Hc Hl. rewrite firstn_app, forallb_app. destruct (6 - length l)%nat as [|k] eqn:E; [lia|]. cbn [firstn forallb]. rewrite Hc. cbn [andb]. apply andb_false_r.
Qed.
(** Text without six digits in a row, up to a character that is no digit, is passed over. *)
Lemma pass n c r : is_digit c = false -> forall D, (forall k, (k + 6 <= length D)%nat -> forallb is_digit (firstn 6 (skipn k D)) = false) -> put_fraction n (D ++ c :: r) = D ++ c :: put_fraction n r.
Proof.
  intros Hc. induction D as [|d D IH]; intros H; cbn [app]; [apply put_skip; cbn [firstn forallb]; rewrite Hc; reflexivity|].
  assert (W : forallb is_digit (firstn 6 (d :: D ++ c :: r)) = false).
  { change (d :: D ++ c :: r) with ((d :: D) ++ c :: r). destruct (Nat.le_gt_cases 6 (length (d :: D))) as [L|L]; [|apply window_bad; assumption]. rewrite firstn_app. replace (6 - length (d :: D))%nat with 0%nat by lia. rewrite firstn_O, app_nil_r. apply (H 0%nat). exact L. }
  rewrite put_skip by exact W. f_equal. apply IH. intros k Hk. apply (H (S k)). cbn [length]. lia.
Qed.
Lemma short_no_six (t : list ascii) : (length t < 6)%nat -> no_six t.
Proof. intros H k Hk. lia. Qed.
(** The fraction of the second with n digits: after a date without six digits in a row comes the clock and the nearest fraction, unless that is a whole second. *)
Theorem C88_fraction : forall D c n us, no_six D -> is_digit c = false -> exists k, format_fraction (fun _ => D ++ [c]) n us = D ++ c :: hms us ++ "."%char :: padded n (k mod 10 ^ Z.of_nat n) /\
  (Qabs (inject_Z (us mod 1000000) / 1000000 * inject_Z (10 ^ Z.of_nat n) - inject_Z k) <= 1 # 2)%Q /\ 0 <= k <= 10 ^ Z.of_nat n /\
  (k < 10 ^ Z.of_nat n -> number_of (padded n (k mod 10 ^ Z.of_nat n)) = k).
Proof.
  intros D c n us HD Hc. set (u := us mod 1000000). pose proof (Z.mod_pos_bound us 1000000 ltac:(lia)) as Bu. fold u in Bu. set (P := 10 ^ Z.of_nat n). assert (PP : 0 < P) by (apply Z.pow_pos_nonneg; lia).
  set (q := (inject_Z u / inject_Z USEC * inject_Z P)%Q). exists (rhe q).
  assert (NU : number_of (padded 6 (us mod USEC)) = u) by (rewrite number_padded by (apply Z.mod_pos_bound; reflexivity); change (10 ^ Z.of_nat 6) with 1000000; change USEC with 1000000; apply Z.mod_small; apply Z.mod_pos_bound; lia).
  assert (Qb : (0 <= q <= inject_Z P)%Q).
  { unfold q. assert (U0 : (0 <= inject_Z u)%Q) by (change 0%Q with (inject_Z 0); rewrite <- Zle_Qle; lia). assert (U1 : (inject_Z u <= 1000000)%Q) by (change 1000000%Q with (inject_Z 1000000); rewrite <- Zle_Qle; lia). assert (P0 : (0 <= inject_Z P)%Q) by (change 0%Q with (inject_Z 0); rewrite <- Zle_Qle; lia). change (inject_Z USEC) with 1000000%Q.
    assert (Hf : (inject_Z u / 1000000 == (1 # 1000000) * inject_Z u)%Q) by field. rewrite Hf. split; Lqa.nra. }
  split; [|split; [|split]].
  - unfold format_fraction. rewrite <- app_assoc. cbn [app]. rewrite (pass n c _ Hc D HD). do 2 f_equal. destruct (hms_clock us) as (h & m & s & -> & Lh & Lm & Ls & _). do 4 (try rewrite <- !app_assoc; cbn [app]).
    rewrite (pass n ":"%char _ eq_refl h) by (apply short_no_six; lia). f_equal. f_equal. rewrite (pass n ":"%char _ eq_refl m) by (apply short_no_six; lia). f_equal. f_equal. rewrite (pass n "."%char _ eq_refl s) by (apply short_no_six; lia). f_equal. f_equal.
    rewrite <- (app_nil_r (padded 6 (us mod USEC))). rewrite put_here by (try apply padded_length; apply padded_digits). rewrite NU, app_nil_r. reflexivity.
  - apply Qabs_Qle_condition. apply (rhe_half q).
  - split; [rewrite <- (rhe_int 0)|rewrite <- (rhe_int P)]; apply rhe_mono; apply Qb.
  - intros Hk. assert (K0 : 0 <= rhe q) by (rewrite <- (rhe_int 0); apply rhe_mono; apply Qb). rewrite number_padded by (apply Z.mod_pos_bound; exact PP). fold P. rewrite Z.mod_mod by lia. apply Z.mod_small. lia.
Qed.
Print Assumptions C88_fraction.
(** Refuted: the last half unit of each second is shown as the start of the same second: 12:00:00.996 with two digits is 12:00:00.00. *)
Theorem C88_carry_refuted : forall D c n us, no_six D -> is_digit c = false -> (inject_Z (us mod 1000000) / 1000000 * inject_Z (10 ^ Z.of_nat n) > inject_Z (10 ^ Z.of_nat n) - (1 # 2))%Q ->
  format_fraction (fun _ => D ++ [c]) n us = D ++ c :: hms us ++ "."%char :: padded n 0.
Proof.
  intros D c n us HD Hc H. destruct (C88_fraction D c n us HD Hc) as (k & E & A & B & _). rewrite E. do 5 f_equal. apply Qabs_Qle_condition in A.
  assert (10 ^ Z.of_nat n <= k) by (apply between; Lqa.lra). replace k with (10 ^ Z.of_nat n) by lia. apply Z.mod_same. assert (0 < 10 ^ Z.of_nat n) by (apply Z.pow_pos_nonneg; lia). lia.
Qed.
Print Assumptions C88_carry_refuted.
(** Refuted: when the date has six digits in a row, as 20161116 of '%Y%m%d', these are taken for the fraction: the date is destroyed and the microseconds are shown in full. *)
Theorem C88_digits_of_date_refuted : forall ym d n us, length ym = 6%nat -> forallb is_digit ym = true -> format_fraction (fun _ => ym ++ d) n us = fraction n (number_of ym) ++ d ++ hms us ++ "."%char :: padded 6 (us mod 1000000).
Proof. intros ym d n us L Dg. unfold format_fraction. rewrite <- app_assoc. rewrite put_here by assumption. reflexivity. Qed.
Print Assumptions C88_digits_of_date_refuted.
Example C88_text_case : format_hms false (3723 * 1000000) = ["0"; "1"; ":"; "0"; "2"; ":"; "0"; "3"]%char /\ format_hms true (2 * 86400 * 1000000 + 61000000) = (["2"] ++ days_word ++ ["0"; "0"; ":"; "0"; "1"; ":"; "0"; "1"])%char /\
  format_fraction (fun _ => [" "]%char) 2 1234567 = [" "; "0"; "0"; ":"; "0"; "0"; ":"; "0"; "1"; "."; "2"; "3"]%char /\ format_fraction (fun _ => [" "]%char) 2 1996000 = [" "; "0"; "0"; ":"; "0"; "0"; ":"; "0"; "1"; "."; "0"; "0"]%char.
Proof. vm_compute. repeat split. Qed.
