(** C60: conversions of points between Cartesian, spherical, latitude and longitude and polar plots. *)
From Verif Require Import MapPtsModel RotProofs SeedProps.
From Coq Require Import Lra Lia.
Open Scope R_scope.

(** * specification *)
(* the distance of a point from the z axis *)
Definition axial (p : vec) : R := sqrt (v0 p * v0 p + v1 p * v1 p).
(* p is at distance r from the origin, at the angle t from the z axis and at the angle f around it, from x towards y *)
Definition spherical (p : vec) (r t f : R) : Prop :=
  norm p = r /\ v2 p = r * cos t /\ 0 <= t <= PI /\ v0 p = axial p * cos f /\ v1 p = axial p * sin f.
Definition degrees (x : R) : R := x * (180 / PI).
Definition radians (u : unit_t) (x : R) : R := match u with Rad => x | Deg => x * (PI / 180) end.

(** * helpers *)
Lemma pi_bounds : 3 < PI < 35 / 10.
Proof.
  split; [pose proof PI2_3_2; lra|]. pose proof (proj2 (PI_ineq 1)) as H. cbn [Nat.mul Nat.add sum_f_R0] in H. unfold tg_alt, PI_tg in H. cbn [pow Nat.mul Nat.add] in H. change (INR 1) with 1 in H. replace (INR 3) with 3 in H by (cbn; ring). replace (INR 5) with 5 in H by (cbn; ring). lra.
Qed.
Lemma trunc_at x (n : Z) : (0 <= n)%Z -> IZR n <= x < IZR n + 1 -> trunc x = IZR n.
Proof.
  intros N H. assert (0 <= IZR n) by (apply (IZR_le 0); exact N). unfold trunc. destruct (Rle_dec 0 x) as [_|F]; [|exfalso; apply F; lra]. f_equal. destruct (base_Int_part x) as (A & B).
  assert (IZR n < IZR (Int_part x) + 1) by lra. assert (IZR (Int_part x) < IZR n + 1) by lra. rewrite <- plus_IZR in *. assert (n < Int_part x + 1)%Z by (apply lt_IZR; assumption). assert (Int_part x < n + 1)%Z by (apply lt_IZR; assumption). lia.
Qed.
Lemma sq_nonneg x : 0 <= x * x.
Proof. apply Rle_0_sqr. Qed.
Lemma axial_sq p : axial p * axial p = v0 p * v0 p + v1 p * v1 p.
Proof. apply sqrt_sqrt. pose proof (sq_nonneg (v0 p)). pose proof (sq_nonneg (v1 p)). lra. Qed.
Lemma axial_pos p : 0 <= axial p.
Proof. apply sqrt_pos. Qed.
Lemma norm_axial p : norm p * norm p = axial p * axial p + v2 p * v2 p.
Proof. rewrite norm_sq, axial_sq. unfold vdot. ring. Qed.
Lemma norm_nonzero p : p <> VEC 0 0 0 -> 0 < norm p.
Proof.
  intros H. destruct (norm_pos p) as [L|E]; [exact L|]. exfalso. apply H. pose proof (norm_sq p) as Q. rewrite <- E in Q. unfold vdot in Q. pose proof (sq_nonneg (v0 p)). pose proof (sq_nonneg (v1 p)). pose proof (sq_nonneg (v2 p)). destruct p as [x y z]. cbn [v0 v1 v2] in *. f_equal; apply Rsqr_0_uniq; unfold Rsqr; lra.
Qed.
Lemma square_inj a b : 0 <= a -> 0 <= b -> a * a = b * b -> a = b.
Proof. intros A B H. apply Rsqr_inj; assumption. Qed.
Lemma z_ratio p : 0 < norm p -> -1 <= v2 p / norm p <= 1.
Proof.
  intros N. assert (Q : (v2 p / norm p) * (v2 p / norm p) <= 1). { replace 1 with ((norm p * norm p) / (norm p * norm p)) by (field; lra). replace (v2 p / norm p * (v2 p / norm p)) with ((v2 p * v2 p) / (norm p * norm p)) by (field; lra). apply Rmult_le_compat_r; [left; apply Rinv_0_lt_compat, Rmult_lt_0_compat; exact N|]. rewrite norm_axial. pose proof (sq_nonneg (axial p)). lra. }
  split; [|]; apply Rnot_lt_le; intros L; nra.
Qed.
(* the sine of an angle up to PI times r is the distance from the axis *)
Lemma axial_sin p t : norm p * cos t = v2 p -> 0 <= t <= PI -> axial p = norm p * sin t.
Proof.
  intros Z T. assert (S : 0 <= sin t) by (apply sin_ge_0; lra). apply square_inj; [apply axial_pos|apply Rmult_le_pos; [apply norm_pos|exact S]|]. pose proof (norm_axial p) as A. rewrite <- Z in A. pose proof (sin2_cos2 t) as Q. unfold Rsqr in Q. replace (norm p * sin t * (norm p * sin t)) with (norm p * norm p * (1 - cos t * cos t)) by (rewrite <- Q; ring). lra.
Qed.
Lemma azimuth p : let f := arctan2 (v1 p) (v0 p) in v0 p = axial p * cos f /\ v1 p = axial p * sin f.
Proof.
  cbv zeta. destruct (axial_pos p) as [L|E].
  - destruct (arctan2_spec (v1 p) (v0 p) (axial p) L (eq_sym (axial_sq p))) as (C & S). rewrite C, S. split; field; lra.
  - pose proof (axial_sq p) as A. rewrite <- E in *. pose proof (sq_nonneg (v0 p)). pose proof (sq_nonneg (v1 p)). assert (v0 p = 0) by (apply Rsqr_0_uniq; unfold Rsqr; lra). assert (v1 p = 0) by (apply Rsqr_0_uniq; unfold Rsqr; lra). lra.
Qed.
Definition sph (r t f : R) : vec := VEC (r * sin t * cos f) (r * sin t * sin f) (r * cos t).
Lemma sph_spherical r t f : 0 <= r -> 0 <= t <= PI -> spherical (sph r t f) r t f.
Proof.
  intros Hr T. assert (S : 0 <= sin t) by (apply sin_ge_0; lra). pose proof (sin2_cos2 t) as Q. pose proof (sin2_cos2 f) as Qf. unfold Rsqr in *.
  assert (A : axial (sph r t f) = r * sin t). { apply square_inj; [apply axial_pos|apply Rmult_le_pos; assumption|]. rewrite axial_sq. unfold sph. cbn [v0 v1]. replace (r * sin t * (r * sin t)) with (r * sin t * (r * sin t) * (sin f * sin f + cos f * cos f)) by (rewrite Qf; ring). ring. }
  unfold spherical. rewrite A. split; [|split; [reflexivity|split; [exact T|split; reflexivity]]]. apply square_inj; [apply norm_pos|exact Hr|]. rewrite norm_axial, A. unfold sph. cbn [v2]. replace (r * r) with (r * r * (sin t * sin t + cos t * cos t)) by (rewrite Q; ring). ring.
Qed.
Lemma spherical_sph p r t f : spherical p r t f -> p = sph r t f.
Proof.
  intros (N & Z & T & X & Y). assert (A : axial p = norm p * sin t) by (apply axial_sin; [rewrite N; symmetry; exact Z|exact T]). rewrite A, N in X, Y. destruct p as [x y z]. cbn [v0 v1 v2] in *. unfold sph. congruence.
Qed.
Lemma angle_unique a b : - PI < a <= PI -> - PI < b <= PI -> cos a = cos b -> sin a = sin b -> a = b.
Proof. intros A B C S. assert (a - b = 0); [|lra]. apply cos_one; [lra|]. rewrite cos_minus, C, S. pose proof (sin2_cos2 b) as Q. unfold Rsqr in Q. lra. Qed.

(** * theorems *)
(** cart2sph of a float point that is not the origin gives its distance, its angle from the z axis
    and its angle around it; sph2cart takes them back to the point. *)
Theorem C60_cart2sph : forall p, p <> VEC 0 0 0 -> exists r t f,
  cart2sph Float false p = Ok (r, Some t, f) /\ spherical p r t f /\ 0 < r /\ - PI < f <= PI /\
  sph2cart Float false (r, t, f) = Ok p.
Proof.
  intros p H. pose proof (norm_nonzero p H) as N. pose proof (z_ratio p N) as Z. exists (norm p), (acos (v2 p / norm p)), (arctan2 (v1 p) (v0 p)).
  assert (S : spherical p (norm p) (acos (v2 p / norm p)) (arctan2 (v1 p) (v0 p))).
  { unfold spherical. rewrite cos_acos by exact Z. split; [reflexivity|]. split; [field; lra|]. split; [apply acos_bound|]. apply azimuth. }
  split; [|split; [exact S|split; [exact N|split; [apply arctan2_range|]]]].
  - unfold cart2sph. cbn [put]. fold (norm p). destruct (Req_EM_T (norm p) 0); [lra|]. reflexivity.
  - unfold sph2cart. cbn [put]. f_equal. symmetry. apply (spherical_sph _ _ _ _ S).
Qed.
Print Assumptions C60_cart2sph.

(** The origin has no angle from the axis: nan. *)
Theorem C60_origin : cart2sph Float false (VEC 0 0 0) = Ok (0, None, 0).
Proof.
  unfold cart2sph. cbn [put v0 v1 v2]. replace (0 * 0 + 0 * 0 + 0 * 0) with 0 by ring. rewrite sqrt_0. destruct (Req_EM_T 0 0) as [_|]; [|congruence]. do 3 f_equal. unfold arctan2. destruct (Rlt_dec 0 0); [lra|]. destruct (Rlt_dec 0 0); [lra|]. reflexivity.
Qed.
Print Assumptions C60_origin.

(** sph2cart gives the point at that distance and those angles, in radians or degrees. *)
Theorem C60_sph2cart : forall deg r t f, 0 <= r -> 0 <= radians (if deg : bool then Deg else Rad) t <= PI ->
  exists p, sph2cart Float deg (r, t, f) = Ok p /\
    spherical p r (radians (if deg then Deg else Rad) t) (radians (if deg then Deg else Rad) f).
Proof. intros deg r t f Hr T. exists (sph r (radians (if deg then Deg else Rad) t) (radians (if deg then Deg else Rad) f)). split; [destruct deg; reflexivity|]. apply sph_spherical; assumption. Qed.
Print Assumptions C60_sph2cart.

(** Away from the axis cart2sph also undoes sph2cart. *)
Theorem C60_sph2cart_inverse : forall r t f, 0 < r -> 0 < t < PI -> - PI < f <= PI -> exists p,
  sph2cart Float false (r, t, f) = Ok p /\ cart2sph Float false p = Ok (r, Some t, f).
Proof.
  intros r t f Hr T F. destruct (C60_sph2cart false r t f) as (p & E & S); [lra|cbn [radians]; lra|]. cbn [radians] in S. exists p. split; [exact E|].
  assert (P : p <> VEC 0 0 0). { intros Q. destruct S as (N & _). rewrite Q in N. unfold norm in N. cbn [v0 v1 v2] in N. replace (0 * 0 + 0 * 0 + 0 * 0) with 0 in N by ring. rewrite sqrt_0 in N. lra. }
  destruct (C60_cart2sph p P) as (r' & t' & f' & E' & S' & R' & F' & _). rewrite E'. destruct S as (N & Z & _ & X & Y). destruct S' as (N' & Z' & T' & X' & Y').
  assert (r' = r) by congruence. subst r'. assert (t' = t). { apply cos_inj; [exact T'|lra|]. apply Rmult_eq_reg_l with r; [congruence|lra]. } subst t'.
  assert (A : axial p <> 0). { rewrite (axial_sin p t); [|congruence|lra]. rewrite N. assert (0 < sin t) by (apply sin_gt_0; lra). assert (0 < r * sin t) by (apply Rmult_lt_0_compat; lra). lra. }
  assert (f' = f). { apply angle_unique; [exact F'|exact F|apply Rmult_eq_reg_l with (axial p); [congruence|exact A]|apply Rmult_eq_reg_l with (axial p); [congruence|exact A]]. } subst f'. rewrite N. reflexivity.
Qed.
Print Assumptions C60_sph2cart_inverse.

(** latlon2cart gives the point at distance r and latitude lat; its longitude is counted from -x. *)
Theorem C60_latlon2cart : forall dr deg r lat lon, 0 <= r ->
  let u := if deg : bool then Deg else Rad in - (PI / 2) <= radians u lat <= PI / 2 ->
  exists p, latlon2cart dr Float r deg (lat, lon) = Ok p /\ norm p = r /\ v2 p = r * sin (radians u lat) /\
    v0 p = - axial p * cos (radians u lon) /\ v1 p = - axial p * sin (radians u lon).
Proof.
  intros dr deg r lat lon Hr u L. assert (T : radians u (quarter_circ deg - lat) = PI / 2 - radians u lat) by (unfold u, quarter_circ; destruct deg; cbn [radians]; field). assert (F : radians u (lon + half_circ deg) = radians u lon + PI) by (unfold u, half_circ; destruct deg; cbn [radians]; field).
  destruct (C60_sph2cart deg r (quarter_circ deg - lat) (lon + half_circ deg) Hr) as (p & E & S); [fold u; rewrite T; lra|]. fold u in S. rewrite T, F in S. exists p. split; [unfold latlon2cart; destruct dr; destruct deg; exact E|]. destruct S as (N & Z & _ & X & Y). split; [exact N|]. split; [rewrite Z, cos_shift; reflexivity|]. rewrite neg_cos in X. rewrite neg_sin in Y. split; lra.
Qed.
Print Assumptions C60_latlon2cart.

(** In radians cart2latlon returns the latitude, and the longitude up to whole turns, in (-2 PI, 0]. *)
Theorem C60_latlon_round_trip : forall dr r lat lon, 0 < r -> - (PI / 2) < lat < PI / 2 -> exists p k,
  latlon2cart dr Float r false (lat, lon) = Ok p /\
  cart2latlon Float false p = Ok (Some lat, lon + IZR k * (2 * PI)) /\ - (2 * PI) < lon + IZR k * (2 * PI) <= 0.
Proof.
  intros dr r lat lon Hr L. destruct (C60_latlon2cart dr false r lat lon) as (p & E & N & Z & X & Y); [lra|cbn [radians]; lra|]. cbn [radians] in Z, X, Y.
  assert (P : p <> VEC 0 0 0). { intros Q. rewrite Q in N. unfold norm in N. cbn [v0 v1 v2] in N. replace (0 * 0 + 0 * 0 + 0 * 0) with 0 in N by ring. rewrite sqrt_0 in N. lra. }
  destruct (C60_cart2sph p P) as (r' & t' & f' & E' & (N' & Z' & T' & X' & Y') & R' & F' & _). assert (r' = r) by congruence. subst r'. 
  assert (Ct : cos t' = cos (PI / 2 - lat)) by (rewrite cos_shift; apply Rmult_eq_reg_l with r; [congruence|lra]). assert (t' = PI / 2 - lat) by (apply cos_inj; [exact T'|lra|exact Ct]). subst t'.
  assert (A : axial p <> 0). { rewrite (axial_sin p (PI / 2 - lat)); [|congruence|lra]. rewrite N. assert (0 < sin (PI / 2 - lat)) by (apply sin_gt_0; lra). assert (0 < r * sin (PI / 2 - lat)) by (apply Rmult_lt_0_compat; lra). lra. }
  assert (C : cos f' = - cos lon) by (apply Rmult_eq_reg_l with (axial p); [lra|exact A]). assert (S : sin f' = - sin lon) by (apply Rmult_eq_reg_l with (axial p); [lra|exact A]).
  (* f' - lon - PI is a whole number of turns *)
  set (d := f' - PI - lon). assert (D : cos d = 1). { unfold d. rewrite cos_minus. replace (f' - PI) with (f' + PI - 2 * PI) by ring. rewrite cos_minus, sin_minus, cos_2PI, sin_2PI, neg_cos, neg_sin, C, S. pose proof (sin2_cos2 lon) as Q. unfold Rsqr in Q. lra. }
  assert (K : exists k, d = IZR k * (2 * PI)).
  { pose proof PI_RGT_0 as Pp. exists (Int_part (d / (2 * PI))). destruct (base_Int_part (d / (2 * PI))) as (B1 & B2). set (k := IZR (Int_part (d / (2 * PI)))) in *. assert (B : 0 <= d - k * (2 * PI) < 2 * PI). { assert (d = d / (2 * PI) * (2 * PI)) by (field; lra). assert (k * (2 * PI) <= d / (2 * PI) * (2 * PI)) by (apply Rmult_le_compat_r; lra). assert (d / (2 * PI) * (2 * PI) < (k + 1) * (2 * PI)) by (apply Rmult_lt_compat_r; lra). lra. }
    assert (d - k * (2 * PI) = 0); [|lra]. apply cos_one; [lra|]. unfold k in *. clear B B1 B2. set (z := Int_part (d / (2 * PI))) in *. clearbody z. assert (W : cos (IZR z * (2 * PI)) = 1 /\ sin (IZR z * (2 * PI)) = 0).
    { replace (IZR z * (2 * PI)) with (2 * (IZR z * PI)) by ring. assert (Sz : sin (IZR z * PI) = 0) by (apply sin_eq_0_1; exists z; reflexivity). rewrite cos_2a_sin, sin_2a. split; [|]; rewrite Sz; ring. }
    rewrite cos_minus, D. destruct W as (-> & ->). ring. }
  destruct K as (k & K). exists p, k. split; [exact E|]. assert (G : lon + IZR k * (2 * PI) = f' - PI) by (unfold d in K; lra). rewrite G. split; [|lra]. unfold cart2latlon. rewrite E'. cbn [put option_map quarter_circ half_circ]. do 3 f_equal. lra.
Qed.
Print Assumptions C60_latlon_round_trip.

(** Not proved because false: longitudes come back as they went in.  Every longitude from above 0
    to 180 degrees comes back a whole turn less. *)
Theorem C60_longitude_refuted : forall dr r lat lon, 0 < r -> - (PI / 2) < lat < PI / 2 -> 0 < lon <= PI -> exists p,
  latlon2cart dr Float r false (lat, lon) = Ok p /\ cart2latlon Float false p = Ok (Some lat, lon - 2 * PI).
Proof.
  intros dr r lat lon Hr L B. destruct (C60_latlon_round_trip dr r lat lon Hr L) as (p & k & E & E' & Rg). exists p. split; [exact E|]. rewrite E'. assert (k = -1)%Z; [|subst k; replace (lon + -1 * (2 * PI)) with (lon - 2 * PI) by ring; reflexivity].
  pose proof PI_RGT_0 as Pp. assert (IZR k < 0) by nra. assert (-2 < IZR k) by nra. assert (k < 0)%Z by (apply lt_IZR; assumption). assert (-2 < k)%Z by (apply lt_IZR; assumption). lia.
Qed.
Print Assumptions C60_longitude_refuted.

(** Not proved because false: the longitude of as_mapfield (phi2lon) is that of cart2latlon.  They
    differ by half a turn at every point. *)
Theorem C60_phi2lon_refuted : forall p, p <> VEC 0 0 0 -> exists r t f lat,
  cart2sph Float false p = Ok (r, Some t, f) /\ cart2latlon Float false p = Ok (Some lat, phi2lon f - PI).
Proof.
  intros p H. destruct (C60_cart2sph p H) as (r & t & f & E & _). exists r, t, f, (PI / 2 - t). split; [exact E|]. unfold cart2latlon. rewrite E. reflexivity.
Qed.
Print Assumptions C60_phi2lon_refuted.

(** Not proved because false: with deg=True cart2sph returns degrees.  The angles stay in radians, so
    that cart2latlon, where degrees are the default, puts every point near the north pole. *)
Theorem C60_degrees_refuted :
  (exists r t f, cart2sph Float true (VEC 1 0 0) = Ok (r, Some t, f) /\ t = PI / 2 /\ degrees (PI / 2) = 90) /\
  (forall p, p <> VEC 0 0 0 -> exists lat lon, cart2latlon Float true p = Ok (Some lat, lon) /\ 86 < lat <= 90 /\ -184 < lon < -176).
Proof.
  pose proof pi_bounds as Pb. split.
  - exists 1, (PI / 2), (arctan2 0 1). split; [|split; [reflexivity|unfold degrees; field; lra]]. unfold cart2sph. cbn [put v0 v1 v2]. replace (1 * 1 + 0 * 0 + 0 * 0) with 1 by ring. rewrite sqrt_1. destruct (Req_EM_T 1 0); [lra|]. do 4 f_equal. replace (0 / 1) with 0 by field. rewrite <- cos_PI2. apply acos_cos. lra.
  - intros p H. destruct (C60_cart2sph p H) as (r & t & f & E & (_ & _ & T & _) & _ & F & _). exists (90 - t), (f - 180). split; [|lra]. unfold cart2latlon. replace (cart2sph Float true p) with (cart2sph Float false p) by reflexivity. rewrite E. reflexivity.
Qed.
Print Assumptions C60_degrees_refuted.

(** Not proved because false: points can be given as integers.  Results are cut to whole numbers
    (a distance of 1.41 becomes 1 and the angles 90 and 45 degrees become 1 and 0 radian), and the
    conversions of latitudes and those in degrees raise TypeError. *)
Theorem C60_integers_refuted :
  cart2sph Int false (VEC 1 1 0) = Ok (1, Some 1, 0) /\ norm (VEC 1 1 0) = sqrt 2 /\
  (forall p, cart2sph Int true p = TypeError) /\ (forall s, sph2cart Int true s = TypeError) /\
  (forall deg p, cart2latlon Int deg p = TypeError) /\ (forall r deg q, latlon2cart Int Int r deg q = TypeError).
Proof.
  pose proof pi_bounds as Pb. split; [|split; [|split; [|split; [|split]]]].
  - unfold cart2sph. cbn [put v0 v1 v2]. replace (1 * 1 + 1 * 1 + 0 * 0) with 2 by ring. assert (B : 1 < sqrt 2 < 2). { split; [apply Rsqr_incrst_0; unfold Rsqr; try rewrite sqrt_sqrt; try apply sqrt_pos; lra|]. apply Rsqr_incrst_0; unfold Rsqr; try rewrite sqrt_sqrt; try apply sqrt_pos; lra. }
    rewrite (trunc_at (sqrt 2) 1) by (try lia; lra). destruct (Req_EM_T 1 0); [lra|]. replace (0 / 1) with 0 by field. replace (acos 0) with (PI / 2) by (rewrite <- cos_PI2; symmetry; apply acos_cos; lra). rewrite (trunc_at (PI / 2) 1) by (try lia; lra).
    assert (A : arctan2 1 1 = PI / 4). { unfold arctan2. destruct (Rlt_dec 0 1); [|lra]. replace (1 / 1) with 1 by field. apply atan_1. } rewrite A, (trunc_at (PI / 4) 0) by (try lia; lra). reflexivity.
  - unfold norm. cbn [v0 v1 v2]. f_equal. ring.
  - reflexivity.
  - intros [[r t] f]. reflexivity.
  - intros [|] p; reflexivity.
  - intros r [|] [a b]; reflexivity.
Qed.
Print Assumptions C60_integers_refuted.

(** theta2lat and lat2theta turn colatitudes into latitudes and back, and raise exactly if a value is out of range. *)
Lemma existsb_ltb {A} (f g : A -> R) l : existsb (fun a => ltb (f a) (g a)) l = true <-> exists a, In a l /\ f a < g a.
Proof. rewrite existsb_exists. unfold ltb. split; intros (a & I & H); exists a; (split; [exact I|]); destruct (Rlt_dec (f a) (g a)); congruence || lra || auto. Qed.
Definition half_turn (u : unit_t) : R := match u with Deg => 180 | Rad => PI end.
Theorem C60_theta2lat : forall u theta,
  (Forall (fun t => 0 <= t <= half_turn u) theta -> theta2lat u theta = Ok (map (fun t => half_turn u / 2 - t) theta)) /\
  (~ Forall (fun t => 0 <= t <= half_turn u) theta -> theta2lat u theta = ValueError).
Proof.
  intros u theta. assert (H2 : half_turn u / 2 = p90 u) by (destruct u; cbn; field). rewrite H2. assert (H1 : half_turn u = 2 * p90 u) by lra. rewrite H1. clear H1 H2. unfold theta2lat. set (lat := map _ theta).
  destruct (existsb (fun l => ltb l (- p90 u)) lat || existsb (fun l => ltb (p90 u) l) lat)%bool eqn:E.
  - split; [|reflexivity]. intros F. exfalso. rewrite Forall_forall in F. apply Bool.orb_true_iff in E. destruct E as [E|E]; apply (existsb_ltb (fun x => _) (fun x => _)) in E; destruct E as (x & I & L); apply in_map_iff in I; destruct I as (t & <- & I); specialize (F t I); lra.
  - split; [reflexivity|]. intros F. exfalso. apply F. rewrite Forall_forall. intros t I. assert (I' : In (p90 u - t) lat) by (apply (in_map (fun t => p90 u - t)); exact I). apply Bool.orb_false_iff in E. destruct E as (E1 & E2). rewrite <- Bool.not_true_iff_false in E1, E2. split; apply Rnot_lt_le; intros L.
    + apply E2. apply (existsb_ltb (fun _ => p90 u) (fun x => x)). exists (p90 u - t). split; [exact I'|lra].
    + apply E1. apply (existsb_ltb (fun x => x) (fun _ => - p90 u)). exists (p90 u - t). split; [exact I'|lra].
Qed.
Print Assumptions C60_theta2lat.
Theorem C60_lat2theta : forall u lat,
  (Forall (fun l => - (half_turn u / 2) <= l <= half_turn u / 2) lat -> exists theta,
     lat2theta u lat = Ok theta /\ Forall (fun t => 0 <= t <= half_turn u) theta /\ theta2lat u theta = Ok lat) /\
  (~ Forall (fun l => - (half_turn u / 2) <= l <= half_turn u / 2) lat -> lat2theta u lat = ValueError).
Proof.
  intros u lat. assert (H2 : half_turn u / 2 = p90 u) by (destruct u; cbn; field). assert (H3 : half_turn u = p180 u) by (destruct u; reflexivity). unfold lat2theta. set (theta := map _ lat).
  destruct (existsb (fun t => ltb t 0) theta || existsb (fun t => ltb (p180 u) t) theta)%bool eqn:E.
  - split; [|reflexivity]. intros F. exfalso. rewrite Forall_forall in F. apply Bool.orb_true_iff in E. destruct E as [E|E]; apply (existsb_ltb (fun x => _) (fun x => _)) in E; destruct E as (x & I & L); apply in_map_iff in I; destruct I as (t & <- & I); specialize (F t I); lra.
  - apply Bool.orb_false_iff in E. destruct E as (E1 & E2). rewrite <- Bool.not_true_iff_false in E1, E2. assert (Th : Forall (fun t => 0 <= t <= half_turn u) theta).
    { rewrite Forall_forall. intros t I. split; apply Rnot_lt_le; intros L.
      - apply E1. apply (existsb_ltb (fun x => x) (fun _ => 0)). exists t. split; [exact I|lra].
      - apply E2. apply (existsb_ltb (fun _ => p180 u) (fun x => x)). exists t. split; [exact I|lra]. }
    split.
    + intros _. exists theta. split; [reflexivity|]. split; [exact Th|]. rewrite (proj1 (C60_theta2lat u theta) Th). f_equal. unfold theta. rewrite map_map. rewrite <- (map_id lat) at 2. apply map_ext. intros l. lra.
    + intros F. exfalso. apply F. rewrite Forall_forall in *. intros l I. specialize (Th (p90 u - l)). assert (In (p90 u - l) theta) by (apply (in_map (fun l => p90 u - l)); exact I). specialize (Th H). lra.
Qed.
Print Assumptions C60_lat2theta.

(** Points for polar plots: the angle around the pole in radians and the angle from the pole of the hemisphere. *)
Definition from_pole (h : hemisphere) (ax : axis) (x : R) : R :=
  let colatitude := match ax with Theta => x | _ => PI / 2 - x end in
  match h with North => colatitude | _ => PI - colatitude end.
Definition around_axis (a : axis) : Prop := a = Phi \/ a = Lon.
Definition along_axis (a : axis) : Prop := a = Theta \/ a = Lat.
Lemma to_rad_radians u row : to_rad u row = map (radians u) row.
Proof. destruct u; cbn [to_rad]; [apply map_ext; intros x; cbn [radians]; ring|]. symmetry. rewrite <- map_id. apply map_ext. reflexivity. Qed.
Lemma map_float l : map (put Float) l = l.
Proof. rewrite <- (map_id l) at 2. apply map_ext. reflexivity. Qed.
Theorem C60_polar : forall u h a1 a2 row1 row2, h <> NoHemisphere -> around_axis a1 -> along_axis a2 ->
  let ok := a2 = Theta -> Forall (fun t => 0 <= radians u t <= PI) row2 in
  let out := (map (radians u) row1, map (fun x => from_pole h a2 (radians u x)) row2) in
  (ok -> pts2polar Float [row1; row2] [a1; a2] (Some u) h = Ok out /\ pts2polar Float [row2; row1] [a2; a1] (Some u) h = Ok out) /\
  (~ ok -> pts2polar Float [row1; row2] [a1; a2] (Some u) h = ValueError /\ pts2polar Float [row2; row1] [a2; a1] (Some u) h = ValueError).
Proof.
  intros u h a1 a2 row1 row2 Hh H1 H2. cbv zeta. set (T := map (radians u) row2). assert (FT : Forall (fun t => 0 <= radians u t <= PI) row2 <-> Forall (fun t => 0 <= t <= half_turn Rad) T) by (unfold T; rewrite Forall_map; reflexivity).
  assert (E1 : conv_row Float u a1 row1 = Ok (map (radians u) row1, Lon)) by (destruct H1 as [-> | ->]; cbn [conv_row]; rewrite map_float, to_rad_radians; reflexivity).
  split; intros K.
  - assert (E2 : conv_row Float u a2 row2 = Ok (match a2 with Theta => map (fun t => PI / 2 - t) T | _ => T end, Lat)).
    { destruct H2 as [-> | ->]; cbn [conv_row]; rewrite ?to_rad_radians.
      - fold T. rewrite (proj1 (C60_theta2lat Rad T)) by (apply FT, K; reflexivity). rewrite map_float. reflexivity.
      - rewrite map_float. reflexivity. }
    assert (O : forall lat, lat = match a2 with Theta => map (fun t => PI / 2 - t) T | _ => T end -> map (fun x => put Float (polar_scale h * x + PI / 2)) lat = map (fun x => from_pole h a2 (radians u x)) row2).
    { intros lat ->. unfold T. destruct H2 as [-> | ->]; rewrite ?map_map; apply map_ext; intros x; unfold from_pole; cbn [put]; destruct h; try congruence; cbn [polar_scale]; field. }
    split; unfold pts2polar; cbn [conv_rows]; rewrite E1, E2; cbn [row_of find eq_axis snd fst option_map]; rewrite (O _ eq_refl); reflexivity.
  - assert (A2 : a2 = Theta) by (destruct H2 as [-> | ->]; [reflexivity|exfalso; apply K; discriminate]). subst a2. assert (E2 : conv_row Float u Theta row2 = ValueError).
    { cbn [conv_row]. rewrite to_rad_radians. fold T. rewrite (proj2 (C60_theta2lat Rad T)); [reflexivity|]. intros F. apply K. intros _. apply FT. exact F. }
    split; unfold pts2polar; cbn [conv_rows]; rewrite ?E1, E2; reflexivity.
Qed.
Print Assumptions C60_polar.

(** Not proved because false: an unknown hemisphere raises (it is taken as the south), and integer
    points give the same plot (10 degrees from the pole become 0). *)
Theorem C60_polar_refuted :
  (forall d pts axes u, pts2polar d pts axes u NoHemisphere = pts2polar d pts axes u South) /\
  pts2polar Int [[0]; [10]] [Phi; Theta] (Some Deg) North = Ok ([0], [0]) /\
  exists t, pts2polar Float [[0]; [10]] [Phi; Theta] (Some Deg) North = Ok ([0], [t]) /\ degrees t = 10.
Proof.
  pose proof pi_bounds as Pb. split; [reflexivity|]. assert (Z : trunc (PI / 180 * 0) = 0) by (rewrite Rmult_0_r; apply (trunc_at 0 0); [lia|lra]). split.
  - unfold pts2polar. cbn [conv_rows conv_row to_rad map put]. rewrite Z. rewrite (proj1 (C60_theta2lat Rad [PI / 180 * 10])) by (constructor; [cbn [half_turn]; lra|constructor]). cbn [map half_turn put]. rewrite (trunc_at (PI / 2 - PI / 180 * 10) 1) by (try lia; lra). cbn [row_of find eq_axis snd fst option_map map put polar_scale]. rewrite (trunc_at (-1 * 1 + PI / 2) 0) by (try lia; lra). reflexivity.
  - exists (10 * (PI / 180)). split; [|unfold degrees; field; lra]. destruct (C60_polar Deg North Phi Theta [0] [10]) as (H & _); [discriminate|left; reflexivity|left; reflexivity|]. destruct H as (H & _).
    + intros _. constructor; [cbn [radians]; lra|constructor].
    + rewrite H. cbn [map from_pole radians]. do 3 f_equal. ring.
Qed.
Print Assumptions C60_polar_refuted.

(** the hypotheses are met *)
Example C60_nonvacuous :
  VEC 1 2 (-2) <> VEC 0 0 0 /\ (0 <= 2 /\ 0 <= radians Deg 60 <= PI) /\ (0 < 2 /\ 0 < 1 < PI /\ - PI < -2 <= PI) /\
  - (PI / 2) <= radians Deg 45 <= PI / 2 /\ - (PI / 2) < 1 < PI / 2 /\
  pts2polar Float [[30; 150]; [90; -90]] [Theta; Phi] (Some Deg) South = Ok ([90 * (PI / 180); -90 * (PI / 180)], [PI - 30 * (PI / 180); PI - 150 * (PI / 180)]) /\
  theta2lat Deg [0; 181] = ValueError.
Proof.
  pose proof pi_bounds as Pb. split; [intros H; injection H; lra|]. split; [cbn [radians]; lra|]. split; [lra|]. split; [cbn [radians]; lra|]. split; [lra|]. split.
  - destruct (C60_polar Deg South Phi Theta [90; -90] [30; 150]) as (H & _); [discriminate|left; reflexivity|left; reflexivity|]. destruct H as (_ & H); [|rewrite H; reflexivity]. intros _. repeat constructor; cbn [radians]; lra.
  - apply C60_theta2lat. intros F. inversion F as [|x l Hx Hl Ex]. inversion Hl as [|x' l' Hx' Hl' Ex']. cbn [half_turn] in Hx'. lra.
Qed.
Print Assumptions C60_nonvacuous.
