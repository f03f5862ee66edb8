(** C63: the field of a dipole. *)
From Verif Require Import DipModel RotProofs MapPtsProps.
From Coq Require Import Lra Lia.
Open Scope R_scope.

(** * specification *)
(* the scalar potential of a dipole with moment m: m . x / |x|^3 *)
Definition potential (m x : vec) : R := vdot m x / (norm x * norm x * norm x).
(* x with component i replaced by t *)
Definition with_comp (i : nat) (x : vec) (t : R) : vec :=
  match i with O => VEC t (v1 x) (v2 x) | S O => VEC (v0 x) t (v2 x) | _ => VEC (v0 x) (v1 x) t end.
(* d is the partial derivative of g at x along axis i *)
Definition partial (i : nat) (g : vec -> R) (x : vec) (d : R) : Prop :=
  derivable_pt_lim (fun t => g (with_comp i x t)) (comp i x) d.
(* the field at a place: minus the gradient of the potential *)
Definition dipole_field (m x b : vec) : Prop := forall i, (i < 3)%nat -> partial i (potential m) x (- comp i b).

(** * one dimension *)
Lemma der_ext f g t d : (forall s, f s = g s) -> derivable_pt_lim f t d -> derivable_pt_lim g t d.
Proof. intros E D e He. destruct (D e He) as (h & H). exists h. intros k K1 K2. rewrite <- !E. apply H; assumption. Qed.
Lemma der_val f t d d' : derivable_pt_lim f t d -> d = d' -> derivable_pt_lim f t d'.
Proof. intros H <-. exact H. Qed.
Lemma der_sq c t : derivable_pt_lim (fun s => s * s + c) t (2 * t).
Proof. replace (2 * t) with (1 * t + t * 1 + 0) by ring. apply (derivable_pt_lim_plus (fun s => s * s) (fun _ => c)); [apply (derivable_pt_lim_mult id id); apply derivable_pt_lim_id|apply derivable_pt_lim_const]. Qed.
Lemma der_lin a b t : derivable_pt_lim (fun s => a * s + b) t a.
Proof. apply (der_val _ _ (a * 1 + 0)); [|ring]. apply (derivable_pt_lim_plus (fun s => a * s) (fun _ => b)); [|apply derivable_pt_lim_const]. apply (derivable_pt_lim_scal id). apply derivable_pt_lim_id. Qed.
Lemma der_sqrt c t : 0 < t * t + c -> derivable_pt_lim (fun s => sqrt (s * s + c)) t (t / sqrt (t * t + c)).
Proof.
  intros H. pose proof (sqrt_lt_R0 _ H) as S. replace (t / sqrt (t * t + c)) with (/ (2 * sqrt (t * t + c)) * (2 * t)) by (field; lra). apply (derivable_pt_lim_comp (fun s => s * s + c) sqrt); [apply der_sq|]. apply derivable_pt_lim_sqrt. exact H.
Qed.
Lemma der_cube c t : 0 < t * t + c -> derivable_pt_lim (fun s => (s * s + c) * sqrt (s * s + c)) t (3 * t * sqrt (t * t + c)).
Proof.
  intros H. pose proof (sqrt_lt_R0 _ H) as S. pose proof (sqrt_sqrt (t * t + c) (Rlt_le _ _ H)) as Q. replace (3 * t * sqrt (t * t + c)) with (2 * t * sqrt (t * t + c) + (t * t + c) * (t / sqrt (t * t + c))).
  - apply (derivable_pt_lim_mult (fun s => s * s + c) (fun s => sqrt (s * s + c))); [apply der_sq|apply der_sqrt; exact H].
  - rewrite <- Q at 2. field. lra.
Qed.
Lemma der_phi a b c t : 0 < t * t + c ->
  derivable_pt_lim (fun s => (a * s + b) / ((s * s + c) * sqrt (s * s + c))) t
    (- ((3 * t * (a * t + b) / (t * t + c) - a) / ((t * t + c) * sqrt (t * t + c)))).
Proof.
  intros H. pose proof (sqrt_lt_R0 _ H) as S. pose proof (sqrt_sqrt (t * t + c) (Rlt_le _ _ H)) as Q. set (f := t * t + c) in *. set (s := sqrt f) in *.
  replace (- _) with ((a * (f * s) - 3 * t * s * (a * t + b)) / Rsqr (f * s)).
  - apply (derivable_pt_lim_div (fun s => a * s + b) (fun s => (s * s + c) * sqrt (s * s + c))); [apply der_lin|unfold s, f; apply der_cube; exact H|]. fold f. fold s. apply Rgt_not_eq, Rmult_lt_0_compat; assumption.
  - unfold Rsqr. clearbody s f. field. split; lra.
Qed.
Lemma der_comp a b c t : 0 < t * t + c ->
  derivable_pt_lim (fun s => (3 * s * (a * s + b) / (s * s + c) - a) / ((s * s + c) * sqrt (s * s + c))) t
    ((6 * a * t + 3 * b - 9 * t * t * (a * t + b) / (t * t + c) - 6 * t * t * (a * t + b) / (t * t + c) + 3 * a * t) / ((t * t + c) * (t * t + c) * sqrt (t * t + c))).
Proof.
  intros H. pose proof (sqrt_lt_R0 _ H) as S. pose proof (sqrt_sqrt (t * t + c) (Rlt_le _ _ H)) as Q. set (f := t * t + c) in *. set (s := sqrt f) in *.
  set (n := 3 * t * (a * t + b)). set (n' := 3 * (a * t + b) + 3 * t * a). set (g := n / f - a). set (g' := (n' * f - 2 * t * n) / Rsqr f).
  assert (Dn : derivable_pt_lim (fun s => 3 * s * (a * s + b)) t n'). { unfold n'. apply (derivable_pt_lim_mult (fun s => 3 * s) (fun s => a * s + b)); [|apply der_lin]. apply (der_ext (fun s => 3 * s + 0)); [intros; ring|apply der_lin]. }
  assert (Dg : derivable_pt_lim (fun s => 3 * s * (a * s + b) / (s * s + c) - a) t g'). { replace g' with (g' - 0) by ring. apply (derivable_pt_lim_minus (fun s => 3 * s * (a * s + b) / (s * s + c)) (fun _ => a)); [|apply derivable_pt_lim_const]. apply (derivable_pt_lim_div (fun s => 3 * s * (a * s + b)) (fun s => s * s + c)); [exact Dn|apply der_sq|fold f; lra]. }
  replace (_ / (f * f * s)) with ((g' * (f * s) - 3 * t * s * g) / Rsqr (f * s)).
  - apply (derivable_pt_lim_div (fun s => 3 * s * (a * s + b) / (s * s + c) - a) (fun s => (s * s + c) * sqrt (s * s + c))); [exact Dg|unfold s, f; apply der_cube; exact H|]. fold f. fold s. apply Rgt_not_eq, Rmult_lt_0_compat; assumption.
  - unfold g, g', n, n', Rsqr. clearbody s f. field. split; lra.
Qed.

(** * three dimensions *)
Definition others (i : nat) (x : vec) : R := vdot x x - comp i x * comp i x.
Definition mixed (i : nat) (m x : vec) : R := vdot m x - comp i m * comp i x.
Lemma line_dot i m x t : (i < 3)%nat -> vdot m (with_comp i x t) = comp i m * t + mixed i m x /\ vdot (with_comp i x t) (with_comp i x t) = t * t + others i x /\ comp i (with_comp i x t) = t.
Proof. intros H. unfold mixed, others, vdot. destruct i as [|[|[|i]]]; try lia; cbn [with_comp comp v0 v1 v2]; (split; [ring|split; [ring|reflexivity]]). Qed.
Lemma potential_eq m x : potential m x = vdot m x / (vdot x x * sqrt (vdot x x)).
Proof. unfold potential. rewrite norm_sq. unfold norm, vdot. reflexivity. Qed.
Lemma dip_eq m i x : dip_at m i x = (3 * comp i x * vdot m x / vdot x x - comp i m) / (vdot x x * sqrt (vdot x x)).
Proof. reflexivity. Qed.
Lemma nonzero_sq x : x <> VEC 0 0 0 -> 0 < vdot x x.
Proof. intros H. rewrite <- norm_sq. pose proof (norm_nonzero x H). apply Rmult_lt_0_compat; assumption. Qed.

(** * theorems *)
(** fill_dipole puts minus the gradient of the potential of the (rescaled) moment, for each component at the
    place where it is stored. *)
Theorem C63_gradient : forall K (crds : nat -> K -> vec) m strength i k, (i < 3)%nat -> crds i k <> VEC 0 0 0 ->
  partial i (potential (rescale strength m)) (crds i k) (- fill_dipole crds m strength i k).
Proof.
  intros K crds m strength i k Hi Hx. unfold fill_dipole. set (M := rescale strength m). set (x := crds i k) in *. clearbody M x. unfold partial. apply (der_ext (fun s => (comp i M * s + mixed i M x) / ((s * s + others i x) * sqrt (s * s + others i x)))).
  { intros s. rewrite potential_eq. destruct (line_dot i M x s Hi) as (-> & -> & _). reflexivity. }
  pose proof (nonzero_sq x Hx) as P. assert (F : comp i x * comp i x + others i x = vdot x x) by (unfold others; ring). assert (G : comp i M * comp i x + mixed i M x = vdot M x) by (unfold mixed; ring).
  rewrite dip_eq, <- F, <- G. apply der_phi. rewrite F. exact P.
Qed.
Print Assumptions C63_gradient.

(** It has no divergence, anywhere but at the centre. *)
Theorem C63_divergence : forall m x, x <> VEC 0 0 0 -> exists d0 d1 d2,
  partial 0 (dip_at m 0) x d0 /\ partial 1 (dip_at m 1) x d1 /\ partial 2 (dip_at m 2) x d2 /\ d0 + d1 + d2 = 0.
Proof.
  intros m x Hx. pose proof (nonzero_sq x Hx) as P. set (d i := (6 * comp i m * comp i x + 3 * mixed i m x - 9 * comp i x * comp i x * vdot m x / vdot x x - 6 * comp i x * comp i x * vdot m x / vdot x x + 3 * comp i m * comp i x) / (vdot x x * vdot x x * sqrt (vdot x x))).
  assert (D : forall i, (i < 3)%nat -> partial i (dip_at m i) x (d i)).
  { intros i Hi. unfold partial. apply (der_ext (fun s => (3 * s * (comp i m * s + mixed i m x) / (s * s + others i x) - comp i m) / ((s * s + others i x) * sqrt (s * s + others i x)))).
    { intros s. rewrite dip_eq. destruct (line_dot i m x s Hi) as (-> & -> & ->). reflexivity. }
    assert (F : comp i x * comp i x + others i x = vdot x x) by (unfold others; ring). assert (G : comp i m * comp i x + mixed i m x = vdot m x) by (unfold mixed; ring). unfold d. rewrite <- F, <- G. apply der_comp. rewrite F. exact P. }
  exists (d 0%nat), (d 1%nat), (d 2%nat). split; [apply D; lia|]. split; [apply D; lia|]. split; [apply D; lia|].
  unfold d, mixed, vdot in *. cbn [comp]. pose proof (sqrt_lt_R0 _ P) as S. set (s := sqrt _) in *. clearbody s. field. split; lra.
Qed.
Print Assumptions C63_divergence.

(** A given strength is the length of the moment; its direction is kept, or reversed for a negative strength. *)
Theorem C63_strength : forall m s, m <> VEC 0 0 0 -> exists c, rescale (Some s) m = vscale c m /\ norm (rescale (Some s) m) = Rabs s /\ (0 < s -> 0 < c) /\ (s < 0 -> c < 0).
Proof.
  intros m s Hm. pose proof (norm_nonzero m Hm) as N. exists (s / norm m). split; [reflexivity|]. split; [|split; intros H; apply Rinv_0_lt_compat in N; unfold Rdiv; nra].
  unfold rescale. apply square_inj; [apply norm_pos|apply Rabs_pos|]. rewrite norm_sq. rewrite <- Rabs_mult, (Rabs_pos_eq (s * s)) by apply Rle_0_sqr. replace (vdot _ _) with (s / norm m * (s / norm m) * vdot m m) by (unfold vdot, vscale; cbn [v0 v1 v2]; ring). rewrite <- norm_sq. field. lra.
Qed.
Print Assumptions C63_strength.

(** calc_dip gives the dipole field at a single float point ... *)
Theorem C63_one_point : forall arg x m strength, arg = One x \/ arg = Many [x] -> x <> VEC 0 0 0 -> exists b,
  calc_dip Float arg m strength = Ok [b] /\ dipole_field (rescale strength m) x b.
Proof.
  intros arg x m strength Ha Hx. set (M := rescale strength m). exists (VEC (dip_at M 0 x) (dip_at M 1 x) (dip_at M 2 x)). split.
  - destruct m as [a b c]. destruct Ha as [-> | ->]; reflexivity.
  - intros i Hi. pose proof (C63_gradient unit (fun _ _ => x) m strength i tt Hi Hx) as G. unfold fill_dipole in G. fold M in G. destruct i as [|[|[|i]]]; [exact G|exact G|exact G|lia].
Qed.
Print Assumptions C63_one_point.
(** ... but not at several.  All other numbers of points than one and three raise, and for three points the
    denominators of the points are used for the components. *)
Theorem C63_points_refuted :
  (forall d l m strength, length l <> 1%nat -> length l <> 3%nat -> calc_dip d (Many l) m strength = ValueError) /\
  exists b, calc_dip Float (Many [VEC 1 0 0; VEC 0 2 0; VEC 0 0 4]) (VEC 0 0 1) None = Ok b /\
    nth 0 b (VEC 0 0 0) = VEC 0 0 (-1 / 64) /\ dipole_field (VEC 0 0 1) (VEC 1 0 0) (VEC 0 0 (-1)).
Proof.
  split; [intros d l m strength A B; unfold calc_dip, calc_rows; apply Nat.eqb_neq in A, B; rewrite A, B; reflexivity|]. eexists. split; [reflexivity|]. cbn [nth map comp v0 v1 v2 Nat.eqb length rescale put]. split.
  - assert (S : sqrt (0 * 0 + 0 * 0 + 4 * 4) = 4) by (replace (0 * 0 + 0 * 0 + 4 * 4) with (4 * 4) by ring; apply sqrt_square; lra). assert (S' : sqrt (0 * 0 + 2 * 2 + 0 * 0) = 2) by (replace (0 * 0 + 2 * 2 + 0 * 0) with (2 * 2) by ring; apply sqrt_square; lra). assert (S'' : sqrt (1 * 1 + 0 * 0 + 0 * 0) = 1) by (replace (1 * 1 + 0 * 0 + 0 * 0) with 1 by ring; apply sqrt_1). rewrite S, S', S''. f_equal; field.
  - destruct (C63_one_point (One (VEC 1 0 0)) (VEC 1 0 0) (VEC 0 0 1) None) as (b & E & G); [left; reflexivity|intros Q; injection Q as Q; lra|]. assert (b = VEC 0 0 (-1)); [|subst; exact G].
    unfold calc_dip, calc_rows in E. cbn [nth map comp v0 v1 v2 Nat.eqb length rescale put orb] in E. injection E as <-. assert (S'' : sqrt (1 * 1 + 0 * 0 + 0 * 0) = 1) by (replace (1 * 1 + 0 * 0 + 0 * 0) with 1 by ring; apply sqrt_1). rewrite S''. f_equal; field.
Qed.
Print Assumptions C63_points_refuted.
(** Nor at integer points, for which the moment is cut to integers. *)
Theorem C63_integers_refuted : forall x m, Rabs (v0 m) < 1 -> Rabs (v1 m) < 1 -> Rabs (v2 m) < 1 -> x <> VEC 0 0 0 ->
  calc_dip Int (One x) m None = Ok [VEC 0 0 0].
Proof.
  intros x m A B C Hx. assert (T : forall y, Rabs y < 1 -> put Int y = 0). { intros y Y. cbn [put]. apply Rabs_def2 in Y. destruct (Rle_dec 0 y) as [L|L]; [apply (trunc_at y 0); [lia|lra]|]. unfold trunc. destruct (Rle_dec 0 y); [contradiction|]. pose proof (trunc_at (- y) 0 ltac:(lia)) as Q. unfold trunc in Q. destruct (Rle_dec 0 (- y)) as [_|F]; [|exfalso; apply F; lra]. rewrite Q by lra. ring. }
  unfold calc_dip. rewrite !T by assumption. cbn [rescale calc_rows length Nat.eqb orb map nth comp v0 v1 v2]. do 2 f_equal. pose proof (nonzero_sq x Hx) as P. unfold vdot in P. pose proof (sqrt_lt_R0 _ P) as S. unfold calc_rows. cbn [length Nat.eqb orb map nth comp v0 v1 v2]. repeat f_equal; field; split; lra.
Qed.
Print Assumptions C63_integers_refuted.

(** a staggered component, a moment off the axes and a negative strength *)
Example C63_nonvacuous : exists b, dipole_field (rescale (Some (-2)) (VEC 1 2 2)) (VEC 1 1 1) b /\ b <> VEC 0 0 0.
Proof.
  destruct (C63_one_point (One (VEC 1 1 1)) (VEC 1 1 1) (VEC 1 2 2) (Some (-2))) as (b & E & G); [left; reflexivity|intros Q; injection Q as Q; lra|]. exists b. split; [exact G|]. intros ->. unfold calc_dip, calc_rows in E. cbn [nth map comp v0 v1 v2 Nat.eqb length rescale put orb] in E.
  assert (N : norm (VEC 1 2 2) = 3) by (unfold norm; cbn [v0 v1 v2]; replace (1 * 1 + 2 * 2 + 2 * 2) with (3 * 3) by ring; apply sqrt_square; lra). rewrite N in E. unfold vscale in E. cbn [v0 v1 v2] in E. injection E as E _ _. set (s := sqrt _) in E. assert (0 < s) by (apply sqrt_lt_R0; lra). apply Rmult_integral in E. destruct E as [E|E]; [lra|]. assert (0 < / ((1 * 1 + 1 * 1 + 1 * 1) * s)) by (apply Rinv_0_lt_compat; lra). lra.
Qed.
Print Assumptions C63_nonvacuous.
