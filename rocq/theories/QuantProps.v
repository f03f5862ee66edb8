(** C05: values written by the jrrle quantizer and read back. *)
From Verif Require Import QuantModel.
From Verif Require JrrleModel JrrleProps.
From Coq Require Import Lra Lia.
Open Scope R_scope.

(** * specification: what a file does to the values *)
Definition roundtrip (hdr : R -> R) (a : list R) : option (list R) := match wrn2 hdr a with Some f => rdn2 (length a) f | None => None end.
(* the header keeps numbers below 100 to five digits after the point, or better *)
Definition header_ok (hdr : R -> R) (d : R) : Prop := 0 <= d <= 1 / 200000 /\ forall z, Rabs z <= 99 -> Rabs (hdr z - z) <= d.

(** * the range *)
Lemma e33_pos : 1 < e33.
Proof. unfold e33. apply Rlt_pow_R1; [lra|lia]. Qed.
Lemma ln_33 : ln e33 < 957 / 10.
Proof.
  assert (P : 10 < exp (29 / 10)).
  { assert (A : 129 / 100 < exp (29 / 100)) by (replace (129 / 100) with (1 + 29 / 100) by field; apply exp_ineq1; lra).
    assert (B : exp (29 / 10) = exp (29 / 100) ^ 10) by (rewrite <- (Rpower_pow 10 _ (exp_pos _)); unfold Rpower; rewrite ln_exp; f_equal; cbn [INR]; lra). rewrite B. apply Rlt_le_trans with ((129 / 100) ^ 10); [cbn [pow]; lra|]. apply pow_incr. lra. }
  assert (L : ln 10 < 29 / 10) by (rewrite <- (ln_exp (29 / 10)); apply ln_increasing; lra).
  assert (E : ln e33 = 33 * ln 10). { unfold e33. rewrite <- (Rpower_pow 33) by lra. unfold Rpower. rewrite ln_exp. replace (INR 33) with 33; [reflexivity|]. rewrite INR_IZR_INZ. reflexivity. }
  rewrite E. lra.
Qed.
Lemma ln_e33_inv : ln (/ e33) = - ln e33.
Proof. apply ln_Rinv. pose proof e33_pos. lra. Qed.
Lemma fold_range : forall a z, fst z <= e33 -> / e33 <= snd z -> let r := fold_left (fun z x => (Rmin (fst z) (Rabs x), Rmax (snd z) (Rabs x))) a z in
  fst r <= fst z /\ snd z <= snd r /\ (forall x, In x a -> fst r <= Rabs x <= snd r) /\
  (forall lo, lo <= fst z -> (forall x, In x a -> lo <= Rabs x) -> lo <= fst r) /\ (forall hi, snd z <= hi -> (forall x, In x a -> Rabs x <= hi) -> snd r <= hi).
Proof.
  induction a as [|y a IH]; intros z H1 H2; cbn [fold_left]; cbv zeta.
  - repeat split; try lra; try contradiction; auto.
  - pose proof (Rmin_l (fst z) (Rabs y)) as A. pose proof (Rmin_r (fst z) (Rabs y)) as A'. pose proof (Rmax_l (snd z) (Rabs y)) as B. pose proof (Rmax_r (snd z) (Rabs y)) as B'.
    specialize (IH (Rmin (fst z) (Rabs y), Rmax (snd z) (Rabs y))). cbn [fst snd] in IH. destruct IH as (C & D & E & F & G); [lra|lra|]. cbn [fst snd] in *. repeat split; try lra.
    + destruct H as [<-|I]; [lra|apply E, I].
    + destruct H as [<-|I]; [lra|apply E, I].
    + intros lo L I. apply F; [apply Rmin_glb; [exact L|apply I; left; reflexivity]|intros x J; apply I; right; exact J].
    + intros hi L I. apply G; [apply Rmax_lub; [exact L|apply I; left; reflexivity]|intros x J; apply I; right; exact J].
Qed.
Lemma ln_le x y : 0 < x -> x <= y -> ln x <= ln y.
Proof. intros P [L| ->]; [left; apply ln_increasing; assumption|right; reflexivity]. Qed.
Lemma exp_le x y : x <= y -> exp x <= exp y.
Proof. intros [L| ->]; [left; apply exp_increasing, L|right; reflexivity]. Qed.
Lemma rmax_pos a b : 0 < a -> 0 < Rmax a b.
Proof. intros H. pose proof (Rmax_l a b). lra. Qed.
(* z1 and z2 for a field with a value *)
Record range_ok (a : list R) (z1 z2 : R) : Prop := {
  r_lt : 1 / 10 ^ 5 < z2 - z1;
  r_37 : z2 - z1 <= 37;
  r_b1 : Rabs z1 <= 99;
  r_b2 : Rabs z2 <= 99;
  r_top : z2 <= ln e33 + 1;
  (* all values are below exp z2 *)
  r_hi : forall x, In x a -> Rmin e33 (Rabs x) <= exp z2;
  (* values in reach of the largest one are above exp z1 *)
  r_lo : forall x hi, In x a -> (forall y, In y a -> Rabs y <= hi) -> / e33 <= Rabs x -> hi * exp (-37) <= Rabs x -> exp z1 <= Rabs x;
  r_small : forall x hi, In x a -> (forall y, In y a -> Rabs y <= hi) -> Rabs x < exp z1 -> exp z1 <= / e33 + hi * exp (-37);
  r_spread : forall lo hi, 0 < lo -> (forall y, In y a -> lo <= Rabs y <= hi) -> z2 - z1 <= Rmax (2 + 1 / 10 ^ 5) (ln hi - ln lo);
  r_const : forall c, / e33 <= c <= e33 -> (forall y, In y a -> Rabs y = c) -> z1 = ln c - 1 /\ z2 = ln c + 1
}.
Lemma zrange_ok a x0 : In x0 a -> let (z1, z2) := zrange a in range_ok a z1 z2.
Proof.
  intros I0. unfold zrange, zrange0. pose proof e33_pos as E1. assert (Ei : 0 < / e33) by (apply Rinv_0_lt_compat; lra). assert (Ei1 : / e33 < 1) by (rewrite <- Rinv_1; apply Rinv_lt_contravar; lra).
  pose proof (fold_range a (e33, / e33)) as F. cbv zeta in F. cbn [fst snd] in F. destruct F as (F1 & F2 & F3 & F4 & F5); [lra|lra|]. destruct (fold_left (fun z x => (Rmin (fst z) (Rabs x), Rmax (snd z) (Rabs x))) a (e33, / e33)) as (n0, x1). cbn [fst snd] in *.
  set (zmin := Rmax (/ e33) n0). set (zmax := Rmin e33 x1). assert (P1 : 0 < zmin) by (apply rmax_pos, Ei). assert (P2 : / e33 <= zmax) by (apply Rmin_glb; lra). assert (P3 : zmin <= zmax).
  { apply Rmax_lub; [exact P2|]. apply Rmin_glb; [lra|]. destruct (F3 _ I0). lra. }
  assert (P4 : / e33 <= zmin) by apply Rmax_l. assert (P5 : zmax <= e33) by apply Rmin_l. destruct (Req_EM_T zmin 0) as [Z|_]; [lra|].
  assert (L1 : ln zmin <= ln zmax) by (apply ln_le; assumption). assert (L2 : - ln e33 <= ln zmin) by (rewrite <- ln_e33_inv; apply ln_le; assumption). assert (L3 : ln zmax <= ln e33) by (apply ln_le; lra). pose proof ln_33 as L4.
  set (z2 := ln zmax) in *. set (z1 := Rmax (ln zmin) (z2 - 37)). assert (M1 : ln zmin <= z1) by apply Rmax_l. assert (M2 : z2 - 37 <= z1) by apply Rmax_r. assert (M3 : z1 <= z2) by (apply Rmax_lub; lra).
  assert (X2 : exp z2 = zmax) by (apply exp_ln; lra).
  (* facts about the values and z1, z2 before they are spread *)
  assert (Hi : forall x, In x a -> Rmin e33 (Rabs x) <= zmax) by (intros x I; destruct (F3 _ I); apply Rmin_glb; [apply Rmin_l|pose proof (Rmin_r e33 (Rabs x)); lra]).
  assert (HiM : forall hi, (forall y, In y a -> Rabs y <= hi) -> / e33 <= hi -> zmax <= hi) by (intros hi H Hh; pose proof (Rmin_r e33 x1) as Q; specialize (F5 hi Hh H); fold zmax in Q; lra).
  assert (Z1 : exp z1 = zmin \/ exp z1 = zmax * exp (-37)).
  { unfold z1, Rmax. destruct (Rle_dec (ln zmin) (z2 - 37)); [right; unfold Rminus; rewrite exp_plus, X2; reflexivity|left; apply exp_ln, P1]. }
  assert (Lo : forall x hi, In x a -> (forall y, In y a -> Rabs y <= hi) -> / e33 <= Rabs x -> hi * exp (-37) <= Rabs x -> exp z1 <= Rabs x).
  { intros x hi I H X R. destruct Z1 as [-> | ->].
    - apply Rmax_lub; [exact X|]. apply F3, I.
    - apply Rle_trans with (2 := R). apply Rmult_le_compat_r; [left; apply exp_pos|]. apply HiM; [exact H|]. specialize (H x I). lra. }
  assert (Sm : forall x hi, In x a -> (forall y, In y a -> Rabs y <= hi) -> Rabs x < exp z1 -> exp z1 <= / e33 + hi * exp (-37)).
  { intros x hi I H X. assert (Hn : 0 <= hi) by (specialize (H x I); pose proof (Rabs_pos x); lra). pose proof (exp_pos (-37)) as Ex. assert (Q0 : 0 <= hi * exp (-37)) by (apply Rmult_le_pos; lra). destruct Z1 as [E|E]; rewrite E in *.
    - destruct (F3 _ I) as (G & _). unfold zmin in *. assert (Rmax (/ e33) n0 = / e33) by (apply Rmax_left; destruct (Rle_dec n0 (/ e33)); [assumption|rewrite Rmax_right in X by lra; lra]). lra.
    - assert (zmax <= / e33 + hi). { pose proof (Rmin_r e33 x1) as Q. fold zmax in Q. specialize (F5 (/ e33 + hi) ltac:(lra)). assert (x1 <= / e33 + hi) by (apply F5; intros y J; specialize (H y J); lra). lra. }
      assert (zmax * exp (-37) <= (/ e33 + hi) * exp (-37)) by (apply Rmult_le_compat_r; lra). assert (exp (-37) < 1) by (rewrite <- exp_0; apply exp_increasing; lra). assert (/ e33 * exp (-37) <= / e33 * 1) by (apply Rmult_le_compat_l; lra). lra. }
  assert (Sp : forall lo hi, 0 < lo -> (forall y, In y a -> lo <= Rabs y <= hi) -> z2 - z1 <= ln hi - ln lo).
  { intros lo hi P H. assert (Hh : lo <= hi) by (specialize (H _ I0); lra).
    destruct (Rle_lt_dec (/ e33) hi) as [Q|Q]; [destruct (Rle_lt_dec lo e33) as [Q'|Q']|].
    - assert (A : z2 <= ln hi) by (apply ln_le; [lra|apply HiM; [intros y J; apply H, J|exact Q]]). assert (B : ln lo <= ln zmin) by (apply ln_le; [exact P|]; apply Rle_trans with n0; [apply F4; [exact Q'|intros y J; apply H, J]|apply Rmax_r]). lra.
    - assert (A : zmin = e33). { assert (n0 = e33) by (apply Rle_antisym; [lra|]; apply F4; [lra|]; intros y J; specialize (H y J); lra). unfold zmin. rewrite H0. apply Rmax_right. lra. } assert (ln lo <= ln hi) by (apply ln_le; lra). rewrite A in *. lra.
    - assert (A : zmax = / e33). { unfold zmax. assert (x1 <= / e33) by (apply F5; [lra|]; intros y J; specialize (H y J); lra). assert (x1 = / e33) by lra. rewrite H1. apply Rmin_right. lra. } assert (ln lo <= ln hi) by (apply ln_le; lra). assert (z2 = - ln e33) by (unfold z2; rewrite A; apply ln_e33_inv). lra. }
  assert (Cn : forall c, / e33 <= c <= e33 -> (forall y, In y a -> Rabs y = c) -> z1 = ln c /\ z2 = ln c).
  { intros c Hc H. assert (A : zmax = c). { apply Rle_antisym; [apply HiM; [intros y J; rewrite (H y J); lra|lra]|]. apply Rle_trans with (2 := Hi _ I0). rewrite (H _ I0), Rmin_right; lra. }
    assert (B : zmin = c). { apply Rle_antisym; [apply Rmax_lub; [lra|]; destruct (F3 _ I0); rewrite (H _ I0) in *; lra|]. apply Rle_trans with n0; [apply F4; [lra|intros y J; rewrite (H y J); lra]|apply Rmax_r]. }
    split; [|unfold z2; rewrite A; reflexivity]. unfold z1, z2. rewrite A, B. apply Rmax_left. lra. }
  assert (B1 : Rabs z1 <= 957 / 10) by (apply Rabs_le; lra). assert (B2 : Rabs z2 <= 957 / 10) by (apply Rabs_le; lra).
  destruct (Rle_dec (Rabs (z2 - z1)) (1 / 10 ^ 5)) as [C|C].
  - rewrite Rabs_right in C by lra. constructor; try (cbn [pow] in *; lra).
    + replace (z1 - 1) with (z1 + -1) by ring. apply Rle_trans with (1 := Rabs_triang _ _). rewrite (Rabs_left (-1)) by lra. lra.
    + apply Rle_trans with (1 := Rabs_triang _ _). rewrite (Rabs_right 1) by lra. lra.
    + intros x I. apply Rle_trans with (1 := Hi x I). rewrite <- X2. apply exp_le. lra.
    + intros x hi I H X R. apply Rle_trans with (exp z1); [apply exp_le; lra|]. exact (Lo x hi I H X R).
    + intros x hi I H X. assert (Q : exp (z1 - 1) <= exp z1) by (apply exp_le; lra). apply Rle_trans with (1 := Q). apply (Sm x hi I H). lra.
    + intros lo hi P H. apply Rle_trans with (2 := Rmax_l _ _). cbn [pow] in *. lra.
    + intros c Hc H. destruct (Cn c Hc H). lra.
  - assert (C' : 1 / 10 ^ 5 < z2 - z1) by (apply Rnot_le_lt; intros Q; apply C; rewrite Rabs_right; lra). constructor; try lra; auto.
    + intros x I. rewrite X2. exact (Hi x I).
    + intros lo hi P H. apply Rle_trans with (2 := Rmax_r _ _). exact (Sp lo hi P H).
    + intros c Hc H. destruct (Cn c Hc H). cbn [pow] in C'. lra.
Qed.

(** * one value *)
Lemma int_bounds r : 0 <= r -> IZR (INT r) <= r < IZR (INT r) + 1 /\ (0 <= INT r)%Z.
Proof.
  intros H. unfold INT. destruct (Rle_dec 0 r); [|lra]. destruct (base_Int_part r) as (A & B). split; [lra|]. assert (C : IZR (-1) < IZR (Int_part r)) by lra. apply lt_IZR in C. lia.
Qed.
Lemma int_mono r s : 0 <= r <= s -> (INT r <= INT s)%Z.
Proof.
  intros H. destruct (int_bounds r) as (A & _); [lra|]. destruct (int_bounds s) as (B & _); [lra|]. assert (C : IZR (INT r) < IZR (INT s + 1)) by (rewrite plus_IZR; lra). apply lt_IZR in C. lia.
Qed.
Definition cut z1 x := Rmax (exp z1) (Rmin e33 (Rabs x)).
Definition lev z1 z2 x := 4410 / (z2 - z1) * (ln (cut z1 x) - z1).
Section One.
  Variable a : list R.
  Variables z1 z2 : R.
  Hypothesis K : range_ok a z1 z2.
  Lemma gap : 0 < z2 - z1.
  Proof using K. destruct K as [A]. cbn [pow] in A. lra. Qed.
  Lemma cut_range x : In x a -> z1 <= ln (cut z1 x) <= z2.
  Proof using K.
    intros I. pose proof (exp_pos z1) as E. split.
    - rewrite <- (ln_exp z1) at 1. apply ln_le; [exact E|apply Rmax_l].
    - rewrite <- (ln_exp z2). apply ln_le; [apply rmax_pos, E|]. apply Rmax_lub; [apply exp_le; pose proof gap; lra|exact (r_hi _ _ _ K x I)].
  Qed.
  Lemma lev_range x : In x a -> 0 <= lev z1 z2 x <= 4410.
  Proof using K.
    intros I. destruct (cut_range x I) as (A & B). pose proof gap as G. unfold lev. split.
    - apply Rmult_le_pos; [left; apply Rdiv_lt_0_compat; lra|lra].
    - replace 4410 with (4410 / (z2 - z1) * (z2 - z1)) at 2 by (field; lra). apply Rmult_le_compat_l; [left; apply Rdiv_lt_0_compat; lra|lra].
  Qed.
  Lemma quant_level x : In x a -> snd (quant z1 z2 x) = INT (lev z1 z2 x + 1 / 2) /\ (0 <= INT (lev z1 z2 x + 1 / 2) <= 4410)%Z.
  Proof using K.
    intros I. pose proof (lev_range x I) as (A & B). destruct (int_bounds (lev z1 z2 x + 1 / 2)) as ((C & D) & E); [lra|]. assert (F : IZR (INT (lev z1 z2 x + 1 / 2)) < IZR 4411) by lra. apply lt_IZR in F. split; [|lia].
    unfold quant. cbn [snd]. fold (cut z1 x). fold (lev z1 z2 x). lia.
  Qed.
  Lemma levels_ok : Forall (fun v => (0 <= snd v <= 4414)%Z) (map (quant z1 z2) a).
  Proof using K. apply Forall_forall. intros v I. apply in_map_iff in I. destruct I as (x & <- & I). destruct (quant_level x I) as (-> & A). lia. Qed.
  Variable hdr : R -> R.
  Variable d : R.
  Hypothesis H : header_ok hdr d.
  Lemma hdr_lt : hdr z1 < hdr z2.
  Proof using K H.
    destruct H as (D & F). pose proof (F z1 (r_b1 _ _ _ K)) as A. pose proof (F z2 (r_b2 _ _ _ K)) as B. pose proof (r_lt _ _ _ K) as C. cbn [pow] in C. 
    revert A B. unfold Rabs. destruct (Rcase_abs (hdr z1 - z1)), (Rcase_abs (hdr z2 - z2)); intros; lra.
  Qed.
  Lemma decoded x : In x a -> Rabs (ln (Rabs (dequant (hdr z1) (hdr z2) (quant z1 z2 x))) - ln (cut z1 x)) <= (z2 - z1) / 8820 + d.
  Proof using K H.
    intros I. destruct H as (D & F). pose proof (F z1 (r_b1 _ _ _ K)) as A. pose proof (F z2 (r_b2 _ _ _ K)) as B. unfold dequant. destruct (quant_level x I) as (-> & L). destruct (lev_range x I) as (T0 & T1).
    destruct (int_bounds (lev z1 z2 x + 1 / 2)) as ((C & C') & _); [lra|]. set (k := INT (lev z1 z2 x + 1 / 2)) in *. assert (K0 : 0 <= IZR k) by (apply IZR_le; lia). assert (K1 : IZR k <= 4410) by (apply IZR_le; lia).
    rewrite Rabs_mult, (Rabs_right (exp _)) by (left; apply exp_pos). replace (Rabs (if fst (quant z1 z2 x) then -1 else 1)) with 1 by (destruct (fst (quant z1 z2 x)); [rewrite Rabs_left; lra|rewrite Rabs_right; lra]). rewrite Rmult_1_l, ln_exp.
    pose proof gap as G. assert (E : ln (cut z1 x) = (z2 - z1) / 4410 * lev z1 z2 x + z1) by (unfold lev; field; lra). rewrite E.
    replace ((hdr z2 - hdr z1) / 4410 * IZR k + hdr z1 - ((z2 - z1) / 4410 * lev z1 z2 x + z1)) with ((z2 - z1) / 4410 * (IZR k - lev z1 z2 x) + ((1 - IZR k / 4410) * (hdr z1 - z1) + IZR k / 4410 * (hdr z2 - z2))) by field.
    apply Rle_trans with (1 := Rabs_triang _ _). apply Rplus_le_compat.
    - rewrite Rabs_mult, Rabs_right by (apply Rle_ge; apply Rlt_le, Rdiv_lt_0_compat; lra). replace ((z2 - z1) / 8820) with ((z2 - z1) / 4410 * (1 / 2)) by field. apply Rmult_le_compat_l; [apply Rlt_le, Rdiv_lt_0_compat; lra|]. apply Rabs_le. lra.
    - assert (P0 : 0 <= IZR k / 4410) by (apply Rmult_le_pos; lra). assert (P1 : IZR k / 4410 <= 1) by lra. apply Rle_trans with (1 := Rabs_triang _ _). rewrite !Rabs_mult, (Rabs_right (1 - IZR k / 4410)), (Rabs_right (IZR k / 4410)) by lra.
      replace d with ((1 - IZR k / 4410) * d + IZR k / 4410 * d) by ring. apply Rplus_le_compat; apply Rmult_le_compat_l; lra.
  Qed.
End One.
Lemma rt hdr d a : header_ok hdr d -> exists z1 z2, roundtrip hdr a = Some (map (fun x => dequant (hdr z1) (hdr z2) (quant z1 z2 x)) a) /\ (a = [] \/ range_ok a z1 z2).
Proof.
  intros H. unfold roundtrip, wrn2. destruct a as [|x0 a'].
  - exists 0, 0. split; [|left; reflexivity]. cbn [length map]. destruct (zrange []) as (z1, z2). destruct (JrrleProps.jrrle_levels_roundtrip [] ltac:(constructor)) as (recs & W & _ & Rd). cbn [length] in W, Rd. rewrite W. unfold rdn2. destruct (Req_EM_T (hdr z1) (hdr z2)); [reflexivity|]. rewrite Rd. reflexivity.
  - set (a := x0 :: a') in *. pose proof (zrange_ok a x0 (or_introl eq_refl)) as Zr. destruct (zrange a) as (z1, z2). exists z1, z2. split; [|right; exact Zr].
    destruct (JrrleProps.jrrle_levels_roundtrip (map (quant z1 z2) a) (levels_ok a z1 z2 Zr)) as (recs & W & _ & Rd). rewrite map_length in W, Rd. rewrite W. unfold rdn2. pose proof (hdr_lt a z1 z2 Zr hdr d H) as L. destruct (Req_EM_T (hdr z1) (hdr z2)); [lra|]. rewrite Rd, map_map. reflexivity.
Qed.
Lemma rt_at hdr d a a' i x x' : header_ok hdr d -> roundtrip hdr a = Some a' -> nth_error a i = Some x -> nth_error a' i = Some x' ->
  exists z1 z2, range_ok a z1 z2 /\ a' = map (fun x => dequant (hdr z1) (hdr z2) (quant z1 z2 x)) a /\ x' = dequant (hdr z1) (hdr z2) (quant z1 z2 x) /\ In x a.
Proof.
  intros H E N N'. destruct (rt hdr d a H) as (z1 & z2 & E' & [->|K]); [destruct i; discriminate N|]. rewrite E' in E. assert (A : a' = map (fun x => dequant (hdr z1) (hdr z2) (quant z1 z2 x)) a) by congruence. exists z1, z2. split; [exact K|]. split; [exact A|]. split.
  - rewrite A in N'. rewrite nth_error_map, N in N'. apply (f_equal (fun o => match o with Some v => v | None => 0 end)) in N'. symmetry. exact N'.
  - apply nth_error_In with i, N.
Qed.

(** * properties *)
(* every field can be written and read, with as many values *)
Theorem C05_total : forall hdr d a, header_ok hdr d -> exists a', roundtrip hdr a = Some a' /\ length a' = length a.
Proof. intros hdr d a H. destruct (rt hdr d a H) as (z1 & z2 & E & _). eexists. split; [exact E|apply map_length]. Qed.
Print Assumptions C05_total.

(* negative values stay negative; all others come back positive *)
Theorem C05_sign : forall hdr d a a' i x x', header_ok hdr d -> roundtrip hdr a = Some a' -> nth_error a i = Some x -> nth_error a' i = Some x' ->
  (x < 0 -> x' < 0) /\ (0 <= x -> 0 < x').
Proof.
  intros hdr d a a' i x x' H E N N'. destruct (rt_at _ _ _ _ _ _ _ H E N N') as (z1 & z2 & K & _ & -> & I). unfold dequant, quant. cbn [fst]. set (e := exp _). assert (0 < e) by apply exp_pos. destruct (Rlt_dec x 0); split; intros; lra.
Qed.
Print Assumptions C05_sign.

Section Err.
  Variables (hdr : R -> R) (d : R) (a a' : list R) (i : nat) (x x' lo hi : R).
  Hypothesis H : header_ok hdr d.
  Hypothesis E : roundtrip hdr a = Some a'.
  Hypothesis N : nth_error a i = Some x.
  Hypothesis N' : nth_error a' i = Some x'.
  Hypothesis B : forall y, In y a -> Rabs y <= hi.
  Lemma err : / e33 <= Rabs x <= e33 -> hi * exp (-37) <= Rabs x -> exists D, Rabs (ln (Rabs x') - ln (Rabs x)) <= D / 8820 + d /\ D <= 37 /\ (0 < lo -> (forall y, In y a -> lo <= Rabs y) -> D <= Rmax (2 + 1 / 10 ^ 5) (ln hi - ln lo)).
  Proof using H E N N' B.
    intros X S. destruct (rt_at _ _ _ _ _ _ _ H E N N') as (z1 & z2 & K & _ & -> & I). exists (z2 - z1). split; [|split].
    - pose proof (decoded a z1 z2 K hdr d H x I) as Q. assert (C : cut z1 x = Rabs x) by (unfold cut; rewrite (Rmin_right e33) by lra; apply Rmax_right; exact (r_lo _ _ _ K x hi I B (proj1 X) S)). rewrite C in Q. exact Q.
    - exact (r_37 _ _ _ K).
    - intros P L. apply (r_spread _ _ _ K lo hi P). intros y J. split; [apply L|apply B]; exact J.
  Qed.
End Err.
(* the logarithm of a value moves by at most 1/8820 of the logarithmic range, which is at least 2 and at most 37, plus the error of the header.
   The value has to be between 1e-33 and 1e33 and not smaller than exp(-37) of the largest *)
Theorem C05_error : forall hdr d a a' i x x' lo hi, header_ok hdr d -> roundtrip hdr a = Some a' -> nth_error a i = Some x -> nth_error a' i = Some x' ->
  0 < lo -> (forall y, In y a -> lo <= Rabs y <= hi) -> / e33 <= Rabs x <= e33 -> hi * exp (-37) <= Rabs x ->
  Rabs (ln (Rabs x') - ln (Rabs x)) <= Rmin 37 (Rmax (2 + 1 / 10 ^ 5) (ln (hi / lo))) / 8820 + d.
Proof.
  intros hdr d a a' i x x' lo hi H E N N' P B X S. destruct (err hdr d a a' i x x' lo hi H E N N' (fun y I => proj2 (B y I)) X S) as (D & Q & Q1 & Q2). specialize (Q2 P (fun y I => proj1 (B y I))).
  assert (Hh : 0 < hi) by (destruct (B x (nth_error_In _ _ N)); lra). rewrite <- (ln_mult hi (/ lo)) in Q2 || (unfold Rdiv at 3; rewrite (ln_mult hi (/ lo)), (ln_Rinv lo P); [|exact Hh|apply Rinv_0_lt_compat, P]).
  apply Rle_trans with (1 := Q). apply Rplus_le_compat_r. unfold Rdiv. apply Rmult_le_compat_r; [lra|]. apply Rmin_glb; [exact Q1|]. exact Q2.
Qed.
Print Assumptions C05_error.

Lemma exp_up t : 0 <= t < 1 -> exp t <= / (1 - t).
Proof. intros P. assert (Q : 1 - t <= exp (- t)) by (destruct (Req_dec t 0) as [->|Z]; [rewrite Ropp_0, exp_0; lra|pose proof (exp_ineq1 (- t)); lra]). rewrite exp_Ropp in Q. pose proof (exp_pos t) as Ep. apply Rinv_le_contravar in Q; [|lra]. rewrite Rinv_inv in Q. exact Q. Qed.
Lemma near u v t : 0 < u -> 0 < v -> 0 <= t <= 421 / 100000 -> Rabs (ln v - ln u) <= t -> Rabs (v - u) <= 43 / 10000 * u.
Proof.
  intros U V T Q. assert (Q1 : ln u - t <= ln v <= ln u + t) by (revert Q; unfold Rabs; destruct (Rcase_abs (ln v - ln u)); lra). assert (A : v <= u * exp t) by (rewrite <- (exp_ln v V), <- (exp_ln u U), <- exp_plus; apply exp_le; lra).
  assert (B : u * exp (- t) <= v) by (rewrite <- (exp_ln v V), <- (exp_ln u U), <- exp_plus; apply exp_le; lra).
  assert (C : exp t <= 10043 / 10000). { apply Rle_trans with (exp (421 / 100000)); [apply exp_le; lra|]. apply Rle_trans with (1 := exp_up (421 / 100000) ltac:(lra)). lra. }
  assert (D : 1 - t <= exp (- t)) by (destruct (Req_dec t 0) as [->|Z]; [rewrite Ropp_0, exp_0; lra|pose proof (exp_ineq1 (- t)); lra]).
  assert (u * exp t <= u * (10043 / 10000)) by (apply Rmult_le_compat_l; lra). assert (u * (1 - 43 / 10000) <= u * exp (- t)) by (apply Rmult_le_compat_l; lra). apply Rabs_le. lra.
Qed.
(* what a user sees: such a value is right to 0.43 per cent *)
Theorem C05_relative : forall hdr d a a' i x x' hi, header_ok hdr d -> roundtrip hdr a = Some a' -> nth_error a i = Some x -> nth_error a' i = Some x' ->
  (forall y, In y a -> Rabs y <= hi) -> / e33 <= Rabs x <= e33 -> hi * exp (-37) <= Rabs x ->
  Rabs (x' - x) <= 43 / 10000 * Rabs x.
Proof.
  intros hdr d a a' i x x' hi H E N N' B X S. destruct (err hdr d a a' i x x' 0 hi H E N N' B X S) as (D & Q & Q1 & _). destruct (C05_sign hdr d a a' i x x' H E N N') as (S1 & S2).
  assert (P : 0 < / e33) by (apply Rinv_0_lt_compat; pose proof e33_pos; lra). assert (Xn : x <> 0) by (intros ->; rewrite Rabs_R0 in X; lra). assert (Xp : x' <> 0) by (destruct (Rlt_dec x 0); [specialize (S1 r)|specialize (S2 ltac:(lra))]; lra).
  destruct H as ((D0 & D1) & _). pose proof (near (Rabs x) (Rabs x') (37 / 8820 + d) ltac:(lra) (Rabs_pos_lt _ Xp) ltac:(lra) ltac:(lra)) as Nr.
  destruct (Rlt_dec x 0) as [L|L].
  - specialize (S1 L). rewrite (Rabs_left x), (Rabs_left x') in Nr by lra. rewrite (Rabs_left x) by lra. rewrite <- Rabs_Ropp. replace (- (x' - x)) with (- x' - - x) by ring. exact Nr.
  - specialize (S2 ltac:(lra)). rewrite (Rabs_right x), (Rabs_right x') in Nr by lra. rewrite (Rabs_right x) by lra. exact Nr.
Qed.
Print Assumptions C05_relative.

(* and smaller values, zero included, are only right to about the size of the smallest value that is kept *)
Theorem C05_small : forall hdr d a a' i x x' hi, header_ok hdr d -> roundtrip hdr a = Some a' -> nth_error a i = Some x -> nth_error a' i = Some x' ->
  (forall y, In y a -> Rabs y <= hi) -> Rabs x <= e33 ->
  Rabs (x' - x) <= 43 / 10000 * Rabs x + 3 * (/ e33 + hi * exp (-37)).
Proof.
  intros hdr d a a' i x x' hi H E N N' B X. assert (P : 0 < / e33) by (apply Rinv_0_lt_compat; pose proof e33_pos; lra). assert (Hn : 0 <= hi) by (pose proof (B x (nth_error_In _ _ N)); pose proof (Rabs_pos x); lra). assert (Q0 : 0 <= hi * exp (-37)) by (apply Rmult_le_pos; [exact Hn|left; apply exp_pos]).
  destruct (Rle_dec (/ e33) (Rabs x)) as [L1|L1]; [destruct (Rle_dec (hi * exp (-37)) (Rabs x)) as [L2|L2]; [pose proof (C05_relative hdr d a a' i x x' hi H E N N' B (conj L1 X) L2); lra|]|].
  all: destruct (rt_at _ _ _ _ _ _ _ H E N N') as (z1 & z2 & K & _ & Ex & I); pose proof (decoded a z1 z2 K hdr d H x I) as Q; rewrite <- Ex in Q; pose proof (Rabs_pos x) as Xp;
    assert (C : cut z1 x <= / e33 + hi * exp (-37)) by (unfold cut; rewrite (Rmin_right e33) by lra; destruct (Rle_lt_dec (exp z1) (Rabs x)) as [M|M]; [rewrite Rmax_right by exact M; lra|rewrite Rmax_left by lra; exact (r_small _ _ _ K x hi I B M)]);
    assert (Cp : 0 < cut z1 x) by (apply rmax_pos, exp_pos);
    assert (Vp : 0 < Rabs x') by (apply Rabs_pos_lt; destruct (C05_sign hdr d a a' i x x' H E N N') as (S1 & S2); destruct (Rlt_dec x 0) as [M|M]; [specialize (S1 M)|specialize (S2 ltac:(lra))]; lra);
    pose proof (r_37 _ _ _ K) as R37; pose proof (gap a z1 z2 K) as G; destruct H as ((D0 & D1) & _);
    pose proof (near (cut z1 x) (Rabs x') ((z2 - z1) / 8820 + d) Cp Vp ltac:(lra) Q) as Nr;
    assert (Rabs x' <= 10043 / 10000 * cut z1 x) by (revert Nr; generalize (Rabs x'); intros v; unfold Rabs; destruct (Rcase_abs (v - cut z1 x)); lra);
    pose proof (Rabs_triang x' (- x)) as Tr; rewrite (Rabs_Ropp x) in Tr; fold (x' - x) in Tr; lra.
Qed.
Print Assumptions C05_small.

(* larger magnitudes do not come back smaller *)
Theorem C05_order : forall hdr d a a' i j x y x' y', header_ok hdr d -> roundtrip hdr a = Some a' -> nth_error a i = Some x -> nth_error a' i = Some x' -> nth_error a j = Some y -> nth_error a' j = Some y' ->
  Rabs x <= Rabs y -> Rabs x' <= Rabs y'.
Proof.
  intros hdr d a a' i j x y x' y' H E N N' M M' L. destruct (rt hdr d a H) as (z1 & z2 & E' & [->|K]); [destruct i; discriminate N|]. rewrite E' in E. assert (A : a' = map (fun x => dequant (hdr z1) (hdr z2) (quant z1 z2 x)) a) by congruence. subst a'.
  rewrite nth_error_map in N', M'. rewrite N in N'. rewrite M in M'. apply (f_equal (fun o => match o with Some v => v | None => 0 end)) in N'. apply (f_equal (fun o => match o with Some v => v | None => 0 end)) in M'. cbn beta iota delta [option_map] in N', M'. subst x' y'.
  pose proof (hdr_lt a z1 z2 K hdr d H) as HL. apply nth_error_In in N. apply nth_error_In in M. unfold dequant. destruct (quant_level a z1 z2 K x N) as (-> & L1). destruct (quant_level a z1 z2 K y M) as (-> & L2). rewrite !Rabs_mult, (Rabs_right (exp _)), (Rabs_right (exp _)) by (left; apply exp_pos).
  replace (Rabs (if fst (quant z1 z2 x) then -1 else 1)) with 1 by (destruct (fst (quant z1 z2 x)); [rewrite Rabs_left; lra|rewrite Rabs_right; lra]). replace (Rabs (if fst (quant z1 z2 y) then -1 else 1)) with 1 by (destruct (fst (quant z1 z2 y)); [rewrite Rabs_left; lra|rewrite Rabs_right; lra]). rewrite !Rmult_1_l. apply exp_le. apply Rplus_le_compat_r. apply Rmult_le_compat_l; [left; apply Rdiv_lt_0_compat; lra|]. apply IZR_le. apply int_mono.
  destruct (lev_range a z1 z2 K x N) as (T & _). split; [lra|]. apply Rplus_le_compat_r. unfold lev. pose proof (gap a z1 z2 K) as G. apply Rmult_le_compat_l; [left; apply Rdiv_lt_0_compat; lra|]. apply Rplus_le_compat_r. apply ln_le; [apply rmax_pos, exp_pos|]. unfold cut. apply Rle_max_compat_l. apply Rle_min_compat_l. exact L.
Qed.
Print Assumptions C05_order.

(* a field of one magnitude comes back as it was, up to the header *)
Theorem C05_constant : forall hdr d a a' i x x' c, header_ok hdr d -> roundtrip hdr a = Some a' -> nth_error a i = Some x -> nth_error a' i = Some x' ->
  / e33 <= c <= e33 -> (forall y, In y a -> Rabs y = c) -> Rabs (ln (Rabs x') - ln (Rabs x)) <= d.
Proof.
  intros hdr d a a' i x x' c H E N N' C B. destruct (rt_at _ _ _ _ _ _ _ H E N N') as (z1 & z2 & K & _ & -> & I). destruct (r_const _ _ _ K c C B) as (E1 & E2). destruct H as (D & F). pose proof (F z1 (r_b1 _ _ _ K)) as A1. pose proof (F z2 (r_b2 _ _ _ K)) as A2.
  unfold dequant. destruct (quant_level a z1 z2 K x I) as (-> & _). assert (P : 0 < / e33) by (apply Rinv_0_lt_compat; pose proof e33_pos; lra).
  assert (Cu : cut z1 x = c). { unfold cut. rewrite (B x I), Rmin_right by lra. apply Rmax_right. apply Rle_trans with (exp (ln c)); [apply exp_le; lra|rewrite exp_ln by lra; lra]. }
  assert (L : lev z1 z2 x = 2205) by (unfold lev; rewrite Cu, E1, E2; field; lra). rewrite L. assert (Ki : INT (2205 + 1 / 2) = 2205%Z). { destruct (int_bounds (2205 + 1 / 2) ltac:(lra)) as ((Q1 & Q2) & _). assert (IZR (INT (2205 + 1 / 2)) < IZR 2206) by lra. assert (IZR 2204 < IZR (INT (2205 + 1 / 2))) by lra. apply lt_IZR in H, H0. lia. } rewrite Ki.
  rewrite Rabs_mult, (Rabs_right (exp _)) by (left; apply exp_pos). replace (Rabs (if fst (quant z1 z2 x) then -1 else 1)) with 1 by (destruct (fst (quant z1 z2 x)); [rewrite Rabs_left; lra|rewrite Rabs_right; lra]). rewrite Rmult_1_l, ln_exp, (B x I).
  replace ((hdr z2 - hdr z1) / 4410 * 2205 + hdr z1 - ln c) with (1 / 2 * (hdr z1 - z1) + 1 / 2 * (hdr z2 - z2)) by (rewrite E1, E2; field). apply Rle_trans with (1 := Rabs_triang _ _). rewrite !Rabs_mult, (Rabs_right (1 / 2)) by lra. lra.
Qed.
Print Assumptions C05_constant.

(* zero is not preserved, in any field *)
Theorem C05_zero_refuted : forall hdr d a a' i x', header_ok hdr d -> roundtrip hdr a = Some a' -> nth_error a i = Some 0 -> nth_error a' i = Some x' -> 0 < x'.
Proof. intros hdr d a a' i x' H E N N'. destruct (C05_sign hdr d a a' i 0 x' H E N N') as (_ & S). apply S. lra. Qed.
Print Assumptions C05_zero_refuted.
(* values above 1e33 are cut, without an error *)
Theorem C05_large_refuted : forall hdr d a a' i x x', header_ok hdr d -> roundtrip hdr a = Some a' -> nth_error a i = Some x -> nth_error a' i = Some x' ->
  10 * e33 <= x -> x' <= x / 2.
Proof.
  intros hdr d a a' i x x' H E N N' L. pose proof e33_pos as P. destruct (C05_sign hdr d a a' i x x' H E N N') as (_ & S). specialize (S ltac:(lra)). destruct (rt_at _ _ _ _ _ _ _ H E N N') as (z1 & z2 & K & _ & Ex & I). pose proof (decoded a z1 z2 K hdr d H x I) as Q. rewrite <- Ex in Q.
  destruct (cut_range a z1 z2 K x I) as (_ & C). pose proof (r_top _ _ _ K) as T. pose proof (r_37 _ _ _ K) as T2. destruct H as (D & _). rewrite (Rabs_right x') in Q by lra. assert (Q1 : ln x' <= ln e33 + 1 + 1 / 3) by (revert Q; unfold Rabs; destruct (Rcase_abs (ln x' - ln (cut z1 x))); lra).
  assert (Ub : x' <= e33 * (exp 1 * exp (1 / 3))). { rewrite <- (exp_ln x' S). replace e33 with (exp (ln e33)) by (apply exp_ln; lra). rewrite <- !exp_plus. apply exp_le. lra. }
  pose proof exp_le_3 as E3. pose proof (exp_up (1 / 3) ltac:(lra)) as E4. assert (E5 : exp 1 * exp (1 / 3) <= 3 * (3 / 2)) by (apply Rmult_le_compat; try (left; apply exp_pos); lra). assert (e33 * (exp 1 * exp (1 / 3)) <= e33 * (9 / 2)) by (apply Rmult_le_compat_l; lra). lra.
Qed.
Print Assumptions C05_large_refuted.

(** * the hypotheses can be met *)
(* rounding to five digits after the point *)
Example header_nonvacuous : header_ok (fun z => IZR (Int_part (z * 10 ^ 5 + 1 / 2)) / 10 ^ 5) (1 / 200000).
Proof.
  split; [lra|]. intros z _. destruct (base_Int_part (z * 10 ^ 5 + 1 / 2)) as (A & B). cbn [pow] in *. apply Rabs_le. lra.
Qed.
Example C05_nonvacuous : exists a', roundtrip (fun z => IZR (Int_part (z * 10 ^ 5 + 1 / 2)) / 10 ^ 5) [1; -2; 0] = Some a' /\ (exists x', nth_error a' 1 = Some x' /\ Rabs (x' - -2) <= 43 / 10000 * Rabs (-2)) /\ exists x', nth_error a' 2 = Some x' /\ 0 < x'.
Proof.
  destruct (C05_total _ _ [1; -2; 0] header_nonvacuous) as (a' & E & L). exists a'. split; [exact E|]. pose proof e33_pos as P. assert (Ei : / e33 < 1) by (rewrite <- Rinv_1; apply Rinv_lt_contravar; lra). assert (E2 : 2 < e33) by (unfold e33; apply Rlt_trans with (10 ^ 1); [lra|apply Rlt_pow; [lra|lia]]).
  destruct a' as [|u [|v [|w [|q a']]]]; try discriminate L. split.
  - exists v. split; [reflexivity|]. apply (C05_relative _ _ _ _ 1%nat (-2) v 2 header_nonvacuous E eq_refl eq_refl).
    + intros y [<-|[<-|[<-|[]]]]; unfold Rabs; destruct (Rcase_abs _); lra.
    + rewrite Rabs_left by lra. lra.
    + rewrite Rabs_left by lra. assert (exp (-37) < 1) by (rewrite <- exp_0; apply exp_increasing; lra). lra.
  - exists w. split; [reflexivity|]. exact (C05_zero_refuted _ _ _ _ 2%nat w header_nonvacuous E eq_refl eq_refl).
Qed.
