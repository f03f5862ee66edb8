(** C64: mapping points along the lines of a dipole. *)
From Verif Require Import DipModel DipProps RotProofs RotProps MapPtsProps SeedProps.
From Verif Require CotrModel CotrProps.
From Coq Require Import Lra Lia.
Open Scope R_scope.

(** * specification *)
(* the point at latitude lam of the line that crosses the equator at distance L and azimuth f *)
Definition on_line (L f lam : R) : vec :=
  VEC (L * (cos lam * cos lam * cos lam) * cos f) (L * (cos lam * cos lam * cos lam) * sin f) (L * (cos lam * cos lam) * sin lam).
(* to and back are the matrices of a Cotr instance, after any calls, from a system to SM and back *)
Definition cotr_pair (to back : mat) : Prop := exists prm l1 l2 s,
  CotrProps.matrix_after prm l1 s CotrModel.Sm = CotrModel.Ok to /\ CotrProps.matrix_after prm l2 CotrModel.Sm s = CotrModel.Ok back.

(** * helpers *)
Lemma pair_facts to back : cotr_pair to back -> rotation to /\ back = transpose to.
Proof.
  intros (prm & l1 & l2 & s & A & B). rewrite CotrProps.C22_history in A, B. destruct (CotrProps.refused prm s CotrModel.Sm); [discriminate|]. destruct (CotrProps.refused prm CotrModel.Sm s); [discriminate|]. apply CotrProps.ok_inj in A, B. subst to back. split.
  - apply rotation_mmul; [apply CotrProps.frame_ok|apply rotation_transpose, CotrProps.frame_ok].
  - rewrite transpose_mmul, transpose_transpose. reflexivity.
Qed.
Lemma pair_inv to back : cotr_pair to back -> forall x, mapply to (mapply back x) = x /\ mapply back (mapply to x) = x.
Proof.
  intros H x. destruct (pair_facts _ _ H) as (R & ->). rewrite <- !mapply_mmul, rotation_left by exact R. rewrite (proj1 R), mapply_eye. split; reflexivity.
Qed.
Lemma rot_norm a x : rotation a -> norm (mapply a x) = norm x.
Proof. intros R. apply square_inj; try apply norm_pos. rewrite !norm_sq. apply C19_isometry. exact R. Qed.
Lemma line_sph L f lam : on_line L f lam = sph (L * (cos lam * cos lam)) (PI / 2 - lam) f.
Proof. unfold on_line, sph. rewrite sin_shift, cos_shift. f_equal; ring. Qed.
Lemma cos_lat lam : - (PI / 2) < lam < PI / 2 -> 0 < cos lam.
Proof. intros H. apply cos_gt_0; lra. Qed.
Lemma line_c2s L f lam : 0 < L -> - (PI / 2) < lam < PI / 2 -> - PI < f <= PI ->
  cart2sph Float false (on_line L f lam) = Ok (L * (cos lam * cos lam), Some (PI / 2 - lam), f).
Proof.
  intros HL B F. pose proof (cos_lat lam B) as C. pose proof PI_RGT_0. destruct (C60_sph2cart_inverse (L * (cos lam * cos lam)) (PI / 2 - lam) f) as (p & E & Q); [apply Rmult_lt_0_compat; [exact HL|apply Rmult_lt_0_compat; exact C]|lra|exact F|].
  rewrite line_sph. assert (p = sph (L * (cos lam * cos lam)) (PI / 2 - lam) f); [|subst; exact Q]. unfold sph2cart in E. cbn [put] in E. unfold sph. congruence.
Qed.
Lemma line_norm L f lam : 0 < L -> norm (on_line L f lam) = L * (cos lam * cos lam).
Proof.
  intros HL. apply square_inj; [apply norm_pos|apply Rmult_le_pos; [lra|apply Rle_0_sqr]|]. rewrite norm_sq. unfold on_line, vdot. cbn [v0 v1 v2]. pose proof (sin2_cos2 f) as Q. pose proof (sin2_cos2 lam) as P. unfold Rsqr in *. set (c := cos lam) in *. set (s := sin lam) in *.
  transitivity (L * L * (c * c * c * c) * (c * c * (sin f * sin f + cos f * cos f) + s * s)); [ring|]. rewrite Q. replace (c * c * 1 + s * s) with 1 by lra. ring.
Qed.
Lemma sign_abs x : sign x * Rabs x = x.
Proof. unfold sign. destruct (Rlt_dec 0 x); [rewrite Rabs_pos_eq by lra; ring|]. destruct (Rlt_dec x 0); [rewrite Rabs_left by lra; ring|]. assert (x = 0) by lra. subst. ring. Qed.
Lemma sign_pm x : x <> 0 -> sign x = 1 /\ 0 < x \/ sign x = -1 /\ x < 0.
Proof. intros H. unfold sign. destruct (Rlt_dec 0 x); [left; auto|]. destruct (Rlt_dec x 0); [right; auto|]. lra. Qed.
(* the latitude reached *)
Definition reached (L lam r : R) : R := sign lam * acos (sqrt (r / L)).
Lemma ratio L r : 0 < L -> 0 <= r <= L -> 0 <= r / L <= 1 /\ 0 <= sqrt (r / L) <= 1 /\ sqrt (r / L) * sqrt (r / L) = r / L.
Proof.
  intros HL H. assert (A : 0 <= r / L <= 1). { split; [apply Rmult_le_pos; [lra|left; apply Rinv_0_lt_compat; exact HL]|]. replace 1 with (L / L) by (field; lra). apply Rmult_le_compat_r; [left; apply Rinv_0_lt_compat; exact HL|lra]. }
  split; [exact A|]. split; [split; [apply sqrt_pos|]|apply sqrt_sqrt; lra]. rewrite <- sqrt_1. apply sqrt_le_1; lra.
Qed.
Lemma acos_upto x : 0 <= x <= 1 -> 0 <= acos x <= PI / 2.
Proof.
  intros H. pose proof (acos_bound x) as B. split; [lra|]. apply Rnot_lt_le. intros K. pose proof (cos_acos x ltac:(lra)) as E. assert (cos (acos x) < 0) by (apply cos_lt_0; lra). lra.
Qed.
Lemma reached_facts L lam r : 0 < L -> lam <> 0 -> 0 <= r <= L ->
  L * (cos (reached L lam r) * cos (reached L lam r)) = r /\ - (PI / 2) <= reached L lam r <= PI / 2 /\ 0 <= lam * reached L lam r.
Proof.
  intros HL Hl H. destruct (ratio L r HL H) as (A & B & S). pose proof (acos_upto _ B) as U. assert (C : cos (reached L lam r) = sqrt (r / L)). { unfold reached. destruct (sign_pm lam Hl) as [(-> & _)|(-> & _)]; [rewrite Rmult_1_l|replace (-1 * acos (sqrt (r / L))) with (- acos (sqrt (r / L))) by ring; rewrite cos_neg]; apply cos_acos; lra. }
  rewrite C, S. split; [field; lra|]. unfold reached. destruct (sign_pm lam Hl) as [(-> & P)|(-> & P)]; (split; [lra|]); nra.
Qed.
Lemma line_map L f lam r to p : 0 < L -> - (PI / 2) < lam < PI / 2 -> - PI < f <= PI -> mapply to p = on_line L f lam ->
  (0 <= r <= L -> map_rtp to r p = Some (r, 1 / 2 * PI - reached L lam r, f)) /\ (r < 0 \/ L < r -> map_rtp to r p = None).
Proof.
  intros HL B F E. pose proof (cos_lat lam B) as C. unfold map_rtp, xyz2lsrlp. rewrite E, line_c2s by assumption. replace (1 / 2 * PI - (PI / 2 - lam)) with lam by field. destruct (Req_EM_T (cos lam) 0) as [Z|_]; [lra|]. replace (L * (cos lam * cos lam) / (cos lam * cos lam)) with L by (field; lra). unfold acos_sqrt. split; intros H.
  - destruct (ratio L r HL H) as (A1 & A2 & _). destruct (Rle_dec 0 (r / L)) as [_|K]; [|lra]. destruct (Rle_dec (sqrt (r / L)) 1) as [_|K]; [|lra]. reflexivity.
  - destruct (Rle_dec 0 (r / L)) as [K|K]; [|reflexivity]. destruct (Rle_dec (sqrt (r / L)) 1) as [K'|K']; [|reflexivity]. exfalso. assert (r = r / L * L) by (field; lra). destruct H as [H|H]; [nra|]. assert (r / L <= 1); [|nra]. rewrite <- (sqrt_sqrt (r / L)) by exact K. pose proof (sqrt_pos (r / L)). nra.
Qed.

Lemma turns x k : sin (x + IZR k * (2 * PI)) = sin x /\ cos (x + IZR k * (2 * PI)) = cos x.
Proof.
  assert (P : forall y n, sin (y + INR n * (2 * PI)) = sin y /\ cos (y + INR n * (2 * PI)) = cos y) by (intros y n; replace (y + INR n * (2 * PI)) with (y + 2 * INR n * PI) by ring; split; [apply sin_period|apply cos_period]).
  destruct (Z_le_gt_dec 0 k) as [H|H].
  - destruct (IZN k H) as (n & ->). rewrite <- INR_IZR_INZ. apply P.
  - destruct (IZN (- k)) as (n & E); [lia|]. destruct (P (x + IZR k * (2 * PI)) n) as (S & C). replace (x + IZR k * (2 * PI) + INR n * (2 * PI)) with x in S, C; [split; symmetry; assumption|]. rewrite INR_IZR_INZ, <- E, opp_IZR. ring.
Qed.

(** * theorems *)
(** The lines are the field lines of a dipole along the z axis: their tangent is along the field. *)
Theorem C64_line : forall M L f lam, M <> 0 -> 0 < L -> - (PI / 2) < lam < PI / 2 -> exists b k,
  dipole_field (VEC 0 0 M) (on_line L f lam) b /\ k <> 0 /\
  forall i, (i < 3)%nat -> derivable_pt_lim (fun t => comp i (on_line L f t)) lam (k * comp i b).
Proof.
  intros M L f lam HM HL B. pose proof (cos_lat lam B) as C. set (x := on_line L f lam). set (c := cos lam) in *. set (s := sin lam).
  assert (Hx : x <> VEC 0 0 0). { intros Q. pose proof (line_norm L f lam HL) as N. fold x in N. fold c in N. rewrite Q in N. unfold norm in N. cbn [v0 v1 v2] in N. replace (0 * 0 + 0 * 0 + 0 * 0) with 0 in N by ring. rewrite sqrt_0 in N. assert (0 < L * (c * c)) by (apply Rmult_lt_0_compat; [exact HL|apply Rmult_lt_0_compat; exact C]). lra. }
  exists (VEC (dip_at (VEC 0 0 M) 0 x) (dip_at (VEC 0 0 M) 1 x) (dip_at (VEC 0 0 M) 2 x)), (- (L * c * (L * (c * c)) * (L * (c * c)) * (L * (c * c)) / M)). split; [|split].
  - intros i Hi. pose proof (C63_gradient unit (fun _ _ => x) (VEC 0 0 M) None i tt Hi Hx) as G. unfold fill_dipole in G. cbn [rescale] in G. destruct i as [|[|[|i]]]; [exact G|exact G|exact G|lia].
  - apply Ropp_neq_0_compat. unfold Rdiv. apply Rmult_integral_contrapositive_currified; [|apply Rinv_neq_0_compat; exact HM]. assert (0 < L * (c * c)) by (apply Rmult_lt_0_compat; [exact HL|apply Rmult_lt_0_compat; exact C]). apply Rgt_not_eq. repeat apply Rmult_lt_0_compat; assumption.
  - assert (R2 : vdot x x = L * (c * c) * (L * (c * c))) by (rewrite <- norm_sq; unfold x; rewrite line_norm by exact HL; reflexivity). assert (P : 0 < L * (c * c)) by (apply Rmult_lt_0_compat; [exact HL|apply Rmult_lt_0_compat; exact C]).
    assert (SQ : sqrt (L * (c * c) * (L * (c * c))) = L * (c * c)) by (apply sqrt_square; lra). pose proof (sin2_cos2 lam) as Q. unfold Rsqr in Q. fold s in Q. fold c in Q.
    assert (Dc : derivable_pt_lim cos lam (- s)) by apply derivable_pt_lim_cos. assert (Ds : derivable_pt_lim sin lam c) by apply derivable_pt_lim_sin.
    assert (Dc2 : derivable_pt_lim (fun t => cos t * cos t) lam (- s * c + c * - s)) by (apply (derivable_pt_lim_mult cos cos); assumption).
    assert (Dc3 : derivable_pt_lim (fun t => cos t * cos t * cos t) lam ((- s * c + c * - s) * c + c * c * - s)) by (apply (derivable_pt_lim_mult (fun t => cos t * cos t) cos); assumption).
    assert (D3 : forall h, derivable_pt_lim (fun t => L * (cos t * cos t * cos t) * h) lam (L * h * ((- s * c + c * - s) * c + c * c * - s))). { intros h. apply (der_ext (fun t => (L * h) * (cos t * cos t * cos t))); [intros; ring|]. apply (derivable_pt_lim_scal (fun t => cos t * cos t * cos t)). exact Dc3. }
    assert (Dz : derivable_pt_lim (fun t => L * (cos t * cos t) * sin t) lam (L * (- s * c + c * - s) * s + L * (c * c) * c)). { apply (derivable_pt_lim_mult (fun t => L * (cos t * cos t)) sin); [|exact Ds]. apply (derivable_pt_lim_scal (fun t => cos t * cos t)). exact Dc2. }
    intros i Hi. destruct i as [|[|[|i]]]; [| | |lia]; cbn [comp v0 v1 v2]; rewrite dip_eq, R2, SQ; unfold x, on_line, vdot; cbn [comp v0 v1 v2]; fold c; fold s.
    + apply (der_val _ _ _ _ (D3 (cos f))). field; repeat split; first [exact HM|lra].
    + apply (der_val _ _ _ _ (D3 (sin f))). field; repeat split; first [exact HM|lra].
    + apply (der_val _ _ _ _ Dz). transitivity (L * c * (c * c - 2 * (s * s))); [ring|]. transitivity (L * c * (1 - 3 * (s * s))); [f_equal; lra|]. field; repeat split; first [exact HM|lra].
Qed.
Print Assumptions C64_line.

(** Every point off the axis is on one, and xyz2lsrlp gives which: L, the distance, latitude and azimuth in SM. *)
Theorem C64_lsrlp : forall to back p, cotr_pair to back -> axial (mapply to p) <> 0 -> exists L lam f,
  xyz2lsrlp to p = Some (Some L, norm p, lam, f) /\ 0 < L /\ - (PI / 2) < lam < PI / 2 /\ - PI < f <= PI /\ mapply to p = on_line L f lam.
Proof.
  intros to back p Hp A. destruct (pair_facts _ _ Hp) as (R & _). set (s := mapply to p) in *. assert (Hs : s <> VEC 0 0 0). { intros Q. apply A. rewrite Q. unfold axial. cbn [v0 v1]. replace (0 * 0 + 0 * 0) with 0 by ring. apply sqrt_0. }
  destruct (C60_cart2sph s Hs) as (r & t & f & E & Sp & Hr & Hf & _). pose proof (spherical_sph _ _ _ _ Sp) as Q. destruct Sp as (N & Z & T & _). pose proof (axial_sin s t) as AS. rewrite N in AS. specialize (AS (eq_sym Z) T).
  assert (St : 0 < sin t). { destruct (sin_ge_0 t (proj1 T) (proj2 T)) as [L|L]; [exact L|]. exfalso. apply A. rewrite AS, <- L. ring. }
  assert (T' : 0 < t < PI). { split; [destruct (proj1 T) as [K|K]; [exact K|exfalso; rewrite <- K, sin_0 in St; lra]|destruct (proj2 T) as [K|K]; [exact K|exfalso; rewrite K, sin_PI in St; lra]]. }
  set (lam := 1 / 2 * PI - t). assert (C : cos lam = sin t) by (unfold lam; replace (1 / 2 * PI - t) with (PI / 2 - t) by field; apply cos_shift). exists (r / (cos lam * cos lam)), lam, f. assert (P : 0 < r / (cos lam * cos lam)) by (rewrite C; apply Rmult_lt_0_compat; [exact Hr|apply Rinv_0_lt_compat, Rmult_lt_0_compat; exact St]).
  split; [|split; [exact P|split; [unfold lam; lra|split; [exact Hf|]]]].
  - unfold xyz2lsrlp. fold s. rewrite E. fold lam. destruct (Req_EM_T (cos lam) 0) as [K|_]; [lra|]. rewrite <- N. unfold s. rewrite rot_norm by exact R. reflexivity.
  - rewrite line_sph. replace (PI / 2 - lam) with t by (unfold lam; field). replace (r / (cos lam * cos lam) * (cos lam * cos lam)) with r by (field; lra). exact Q.
Qed.
Print Assumptions C64_lsrlp.

(** dipole_map takes a point off the equator along its line, without crossing the equator, to the distance r,
    and gives nan if the line does not reach r. *)
Theorem C64_map : forall to back p L lam f r, cotr_pair to back -> 0 < L -> - (PI / 2) < lam < PI / 2 -> - PI < f <= PI -> lam <> 0 ->
  mapply to p = on_line L f lam ->
  (0 <= r <= L -> exists p' lam', dipole_map to back r p = Some p' /\ norm p' = r /\ mapply to p' = on_line L f lam' /\
                   - (PI / 2) <= lam' <= PI / 2 /\ 0 <= lam * lam') /\
  (r < 0 \/ L < r -> dipole_map to back r p = None).
Proof.
  intros to back p L lam f r Hp HL B F Hl E. destruct (pair_facts _ _ Hp) as (R & Eb). destruct (line_map L f lam r to p HL B F E) as (M1 & M2). unfold dipole_map. split; intros H; [|rewrite M2 by exact H; reflexivity]. rewrite M1 by exact H. destruct (reached_facts L lam r HL Hl H) as (N & Bd & Sg). set (l' := reached L lam r) in *.
  cbn [sph2cart put]. fold (sph r (1 / 2 * PI - l') f). assert (Q : sph r (1 / 2 * PI - l') f = on_line L f l') by (rewrite line_sph, N; f_equal; field). exists (mapply back (sph r (1 / 2 * PI - l') f)), l'. split; [reflexivity|]. destruct (pair_inv _ _ Hp (sph r (1 / 2 * PI - l') f)) as (I & _). split; [|split; [rewrite I; exact Q|split; assumption]].
  rewrite Eb, rot_norm, Q, line_norm by (try exact HL; apply rotation_transpose; exact R). exact N.
Qed.
Print Assumptions C64_map.

(** Mapping to the distance of the point is the identity ... *)
Theorem C64_same : forall to back p, cotr_pair to back -> axial (mapply to p) <> 0 -> dipole_map to back (norm p) p = Some p.
Proof.
  intros to back p Hp A. destruct (C64_lsrlp to back p Hp A) as (L & lam & f & _ & HL & B & F & E). destruct (pair_facts _ _ Hp) as (R & Eb). pose proof (cos_lat lam B) as C. assert (N : norm p = L * (cos lam * cos lam)) by (rewrite <- (rot_norm to p R), E; apply line_norm; exact HL). assert (C1 : cos lam <= 1) by apply COS_bound. assert (C2 : L * (cos lam * cos lam) <= L) by (replace L with (L * (1 * 1)) at 2 by ring; apply Rmult_le_compat_l; [lra|apply Rmult_le_compat; lra]).
  destruct (line_map L f lam (norm p) to p HL B F E) as (M1 & _). unfold dipole_map. rewrite M1 by (rewrite N; split; [apply Rmult_le_pos; [lra|apply Rle_0_sqr]|exact C2]). assert (Q : reached L lam (norm p) = lam). { unfold reached. rewrite N. replace (L * (cos lam * cos lam) / L) with (cos lam * cos lam) by (field; lra). rewrite sqrt_square by lra. replace (acos (cos lam)) with (Rabs lam); [apply sign_abs|]. destruct (Rle_dec 0 lam); [rewrite Rabs_pos_eq by lra; symmetry; apply acos_cos; lra|]. rewrite Rabs_left by lra. rewrite <- cos_neg. symmetry. apply acos_cos. lra. }
  rewrite Q. cbn [sph2cart put]. fold (sph (norm p) (1 / 2 * PI - lam) f). replace (1 / 2 * PI - lam) with (PI / 2 - lam) by field. rewrite N, <- line_sph, <- E. f_equal. apply (pair_inv _ _ Hp).
Qed.
Print Assumptions C64_same.

(** ... and mapping twice is mapping once, so that mapping back returns the point. *)
Theorem C64_twice : forall to back p L lam f r r' p', cotr_pair to back -> 0 < L -> - (PI / 2) < lam < PI / 2 -> - PI < f <= PI -> lam <> 0 ->
  mapply to p = on_line L f lam -> 0 < r < L -> dipole_map to back r p = Some p' ->
  dipole_map to back r' p' = dipole_map to back r' p /\ dipole_map to back (norm p) p' = Some p.
Proof.
  intros to back p L lam f r r' p' Hp HL B F Hl E Hr Em. pose proof (cos_lat lam B) as C. assert (Hr' : 0 <= r <= L) by lra. destruct (line_map L f lam r to p HL B F E) as (M1 & _). unfold dipole_map in Em. rewrite M1 in Em by exact Hr'. destruct (reached_facts L lam r HL Hl Hr') as (N & Bd & Sg). set (l' := reached L lam r) in *. cbn [sph2cart put] in Em. fold (sph r (1 / 2 * PI - l') f) in Em.
  assert (Q : sph r (1 / 2 * PI - l') f = on_line L f l') by (rewrite line_sph, N; f_equal; field). rewrite Q in Em. assert (E' : mapply to p' = on_line L f l') by (injection Em as <-; apply (pair_inv _ _ Hp)).
  assert (Nz : l' <> 0). { intros K. rewrite K, cos_0 in N. lra. } assert (B' : - (PI / 2) < l' < PI / 2). { split; apply Rnot_le_lt; intros K; assert (W : cos l' = 0) by (first [replace l' with (PI / 2) by lra; apply cos_PI2 | replace l' with (- (PI / 2)) by lra; rewrite cos_neg; apply cos_PI2]); rewrite W in N; lra. }
  assert (Sgn : sign l' = sign lam). { destruct (sign_pm lam Hl) as [(-> & P)|(-> & P)]; destruct (sign_pm l' Nz) as [(-> & P')|(-> & P')]; try reflexivity; exfalso; nra. }
  assert (T : forall r', dipole_map to back r' p' = dipole_map to back r' p). { intros q. destruct (line_map L f lam q to p HL B F E) as (X1 & X2). destruct (line_map L f l' q to p' HL B' F E') as (Y1 & Y2). unfold dipole_map. destruct (Rle_dec 0 q) as [G|G]; [destruct (Rle_dec q L) as [G'|G']|].
    - rewrite X1, Y1 by lra. unfold reached. rewrite Sgn. reflexivity.
    - rewrite X2, Y2 by lra. reflexivity.
    - rewrite X2, Y2 by lra. reflexivity. }
  split; [apply T|]. rewrite T. apply (C64_same to back p Hp). rewrite E. rewrite line_sph. intros A. pose proof (sph_spherical (L * (cos lam * cos lam)) (PI / 2 - lam) f) as S. destruct S as (Sn & Sz & St & _); [apply Rmult_le_pos; [lra|apply Rle_0_sqr]|lra|]. pose proof (axial_sin _ _ (eq_trans (f_equal (fun n => n * _) Sn) (eq_sym Sz)) St) as AS. rewrite A, Sn, sin_shift in AS. assert (0 < L * (cos lam * cos lam) * cos lam) by (apply Rmult_lt_0_compat; [apply Rmult_lt_0_compat; [exact HL|apply Rmult_lt_0_compat; exact C]|exact C]). lra.
Qed.
Print Assumptions C64_twice.

(** On the equator it leaves the line: the point is moved along the equator's radius. *)
Theorem C64_equator_refuted : forall to back p L f r, cotr_pair to back -> - PI < f <= PI -> 0 < r < L -> mapply to p = on_line L f 0 ->
  exists p', dipole_map to back r p = Some p' /\ mapply to p' = on_line r f 0 /\ forall lam, mapply to p' <> on_line L f lam.
Proof.
  intros to back p L f r Hp F Hr E. pose proof PI_RGT_0 as Pp. assert (B : - (PI / 2) < 0 < PI / 2) by lra. destruct (pair_facts _ _ Hp) as (R & Eb). destruct (line_map L f 0 r to p ltac:(lra) B F E) as (M1 & _).
  assert (Z : reached L 0 r = 0) by (unfold reached, sign; destruct (Rlt_dec 0 0); [lra|]; destruct (Rlt_dec 0 0); [lra|]; ring).
  exists (mapply back (sph r (1 / 2 * PI - 0) f)). split; [unfold dipole_map; rewrite M1 by lra; rewrite Z; reflexivity|]. rewrite (proj1 (pair_inv _ _ Hp _)). assert (Q : sph r (1 / 2 * PI - 0) f = on_line r f 0) by (rewrite line_sph, cos_0; f_equal; field). split; [exact Q|].
  intros lam K. rewrite Q in K. assert (Z0 : on_line r f 0 = VEC (r * cos f) (r * sin f) 0) by (unfold on_line; rewrite cos_0, sin_0; f_equal; ring). rewrite Z0 in K. unfold on_line in K. injection K as K1 K2 K3.
  set (c := cos lam) in *. assert (G : L * (c * c * c) = r). { pose proof (sin2_cos2 f) as S. unfold Rsqr in S. transitivity (L * (c * c * c) * sin f * sin f + L * (c * c * c) * cos f * cos f); [transitivity (L * (c * c * c) * (sin f * sin f + cos f * cos f)); [rewrite S; ring|ring]|]. rewrite <- K1, <- K2. transitivity (r * (sin f * sin f + cos f * cos f)); [ring|rewrite S; ring]. }
  symmetry in K3. apply Rmult_integral in K3. pose proof (sin2_cos2 lam) as S. unfold Rsqr in S. fold c in S. destruct K3 as [K3|K3]; [apply Rmult_integral in K3; destruct K3 as [K3|K3]; [lra|]; rewrite K3 in G; lra|]. rewrite K3 in S. assert (c = 1 \/ c = -1) as [W|W] by (assert ((c - 1) * (c + 1) = 0) as W by lra; apply Rmult_integral in W; lra); rewrite W in G; lra.
Qed.
Print Assumptions C64_equator_refuted.


(** Points on the axis stay on it. *)
Theorem C64_axis : forall to back p z r, cotr_pair to back -> z <> 0 -> mapply to p = VEC 0 0 z ->
  exists p', dipole_map to back r p = Some p' /\ mapply to p' = VEC 0 0 (sign z * r).
Proof.
  intros to back p z r Hp Hz E. pose proof PI_RGT_0 as Pp. assert (N : sqrt (0 * 0 + 0 * 0 + z * z) = Rabs z) by (replace (0 * 0 + 0 * 0 + z * z) with (Rsqr z) by (unfold Rsqr; ring); apply sqrt_Rsqr_abs). assert (Az : 0 < Rabs z) by (apply Rabs_pos_lt; exact Hz).
  assert (A : exists t, (t = 0 /\ 0 < z \/ t = PI /\ z < 0) /\ acos (z / Rabs z) = t). { destruct (sign_pm z Hz) as [(_ & P)|(_ & P)]; eexists; (split; [first [left; split; [reflexivity|exact P]|right; split; [reflexivity|exact P]]|]); [rewrite Rabs_pos_eq by lra; replace (z / z) with 1 by (field; lra); apply acos_1|rewrite Rabs_left by lra; replace (z / - z) with (-(1)) by (field; lra)]. rewrite acos_opp, acos_1. ring. }
  destruct A as (t & T & At). assert (C0 : cos (1 / 2 * PI - t) = 0). { destruct T as [(-> & _)|(-> & _)]; [replace (1 / 2 * PI - 0) with (PI / 2) by field; apply cos_PI2|replace (1 / 2 * PI - PI) with (- (PI / 2)) by field; rewrite cos_neg; apply cos_PI2]. }
  set (f := arctan2 0 0). assert (M : map_rtp to r p = Some (r, 1 / 2 * PI - sign (1 / 2 * PI - t) * (PI / 2), f)).
  { unfold map_rtp, xyz2lsrlp, cart2sph. rewrite E. cbn [put v0 v1 v2]. rewrite N. destruct (Req_EM_T (Rabs z) 0); [lra|]. rewrite At. destruct (Req_EM_T (cos (1 / 2 * PI - t)) 0) as [_|]; [|contradiction]. unfold acos_sqrt. rewrite sqrt_0, acos_0. destruct (Rle_dec 0 0); [|lra]. destruct (Rle_dec 0 1); [|lra]. reflexivity. }
  unfold dipole_map. rewrite M. cbn [sph2cart put]. eexists. split; [reflexivity|]. rewrite (proj1 (pair_inv _ _ Hp _)).
  destruct T as [(-> & P)|(-> & P)].
  - assert (S1 : sign (1 / 2 * PI - 0) = 1) by (unfold sign; destruct (Rlt_dec 0 (1 / 2 * PI - 0)); [reflexivity|lra]). assert (S2 : sign z = 1) by (unfold sign; destruct (Rlt_dec 0 z); [reflexivity|lra]). rewrite S1, S2. replace (1 / 2 * PI - 1 * (PI / 2)) with 0 by field. rewrite sin_0, cos_0. f_equal; ring.
  - assert (S1 : sign (1 / 2 * PI - PI) = -1) by (unfold sign; destruct (Rlt_dec 0 (1 / 2 * PI - PI)); [lra|]; destruct (Rlt_dec (1 / 2 * PI - PI) 0); [reflexivity|lra]). assert (S2 : sign z = -1) by (unfold sign; destruct (Rlt_dec 0 z); [lra|]; destruct (Rlt_dec z 0); [reflexivity|lra]). rewrite S1, S2. replace (1 / 2 * PI - -1 * (PI / 2)) with PI by field. rewrite sin_PI, cos_PI. f_equal; ring.
Qed.
Print Assumptions C64_axis.

(** as_spherical gives the distance, the angle from the SM pole and the azimuth, from 0 up to 360 degrees, of the same point. *)
Theorem C64_spherical : forall to back r p, cotr_pair to back -> 0 < r ->
  match dipole_map to back r p with
  | Some p' => exists t f, dipole_map_spherical to r p = Some (r, t, f) /\ 0 <= f < 360 /\ 0 <= t <= 180 /\
                 mapply to p' = sph r (t * (PI / 180)) (f * (PI / 180))
  | None => dipole_map_spherical to r p = None
  end.
Proof.
  intros to back r p Hp Hr. pose proof PI_RGT_0 as Pp. unfold dipole_map, dipole_map_spherical. destruct (map_rtp to r p) as [((r' & t) & f)|] eqn:M; [|reflexivity]. cbn [sph2cart put].
  assert (X : r' = r /\ 0 <= t <= PI). { unfold map_rtp in M. destruct (xyz2lsrlp to p) as [(((l & q) & lam) & g)|]; [|discriminate]. destruct (acos_sqrt _) as [a|] eqn:Ea; [|discriminate]. injection M as <- <- _. split; [reflexivity|]. unfold acos_sqrt in Ea. destruct (Rle_dec 0 _); [|discriminate]. destruct (Rle_dec (sqrt _) 1) as [L|]; [|discriminate]. injection Ea as <-. pose proof (sqrt_pos (match l with Some l => r / l | None => 0 end)) as S. pose proof (acos_upto _ (conj S L)). unfold sign. destruct (Rlt_dec 0 lam); [lra|]. destruct (Rlt_dec lam 0); lra. }
  destruct X as (-> & T). set (g := f * (180 / PI)). set (k := Int_part (g / 360)). exists (t * (180 / PI)), (g - 360 * IZR k). split; [reflexivity|]. destruct (base_Int_part (g / 360)) as (K1 & K2). fold k in K1, K2. split; [lra|]. split.
  { split; [apply Rmult_le_pos; [lra|left; apply Rmult_lt_0_compat; [lra|apply Rinv_0_lt_compat; exact Pp]]|]. replace 180 with (PI * (180 / PI)) at 2 by (field; lra). apply Rmult_le_compat_r; [|lra]. left. apply Rmult_lt_0_compat; [lra|apply Rinv_0_lt_compat; exact Pp]. }
  rewrite (proj1 (pair_inv _ _ Hp _)). replace (t * (180 / PI) * (PI / 180)) with t by (field; lra). replace ((g - 360 * IZR k) * (PI / 180)) with (f + IZR (- k) * (2 * PI)) by (rewrite opp_IZR; unfold g; field; lra).
  unfold sph. destruct (turns f (- k)) as (-> & ->). reflexivity.
Qed.
Print Assumptions C64_spherical.

(** an instance with a tilted dipole, after a call, and a point at latitude pi / 4 of the line with L = 4 *)
Example C64_nonvacuous : exists to back p, cotr_pair to back /\ mapply to p = on_line 4 1 (PI / 4) /\ - (PI / 2) < PI / 4 < PI / 2 /\ - PI < 1 <= PI /\ PI / 4 <> 0.
Proof.
  pose proof pi_bounds as Pb. set (prm := CotrModel.PARAMS (1 / 10) 6 (-29500) (-1500) 4900 (Some 10) (Some 20) false).
  assert (A : cotr_pair (mmul (CotrProps.frame prm CotrModel.Sm) (transpose (CotrProps.frame prm CotrModel.Gse))) (mmul (CotrProps.frame prm CotrModel.Gse) (transpose (CotrProps.frame prm CotrModel.Sm)))) by (exists prm, [CotrModel.DipTilt], [], CotrModel.Gse; rewrite !CotrProps.C22_history; split; reflexivity).
  eexists. eexists. exists (mapply (mmul (CotrProps.frame prm CotrModel.Gse) (transpose (CotrProps.frame prm CotrModel.Sm))) (on_line 4 1 (PI / 4))). split; [exact A|]. split; [apply (pair_inv _ _ A)|]. repeat split; lra.
Qed.
Print Assumptions C64_nonvacuous.
