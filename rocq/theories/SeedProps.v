(** C35: seed generators produce the points they promise; C53: default sphere seeds are all
    different; C54: meshes of spheres; C55: asking again gives the same points. *)
From Verif Require Import RotProofs RotProps AxisProps SeedModel.
From Verif Require PointsProps.
From Coq Require Import Lra Lia.
Open Scope R_scope.

(** * lists *)
Lemma nth_map_some {A B} (f : A -> B) l i x : nth_error l i = Some x -> nth_error (map f l) i = Some (f x).
Proof. intros H. rewrite nth_error_map, H. reflexivity. Qed.
Lemma nth_seq a n i : (i < n)%nat -> nth_error (seq a n) i = Some (a + i)%nat.
Proof. revert a i. induction n as [|n IH]; intros a i H; [lia|]. destruct i as [|i]; cbn [seq nth_error]; [f_equal; lia|]. rewrite IH by lia. f_equal. lia. Qed.
Lemma combine_app {A B} (a a' : list A) (b b' : list B) : length a = length b -> combine (a ++ a') (b ++ b') = combine a b ++ combine a' b'.
Proof. revert b. induction a as [|x a IH]; intros [|y b] H; try discriminate; [reflexivity|]. cbn [combine app]. rewrite IH by (cbn in H; lia). reflexivity. Qed.
Lemma combine_repeat {A B} (x : A) (m : list B) : combine (repeat x (length m)) m = map (pair x) m.
Proof. induction m as [|y m IH]; [reflexivity|]. cbn. f_equal. exact IH. Qed.
(** repeating one axis and tiling the other makes all pairs *)
Lemma grid_prod {A B} (l : list A) (m : list B) : combine (PointsModel.np_repeat l (length m)) (PointsModel.tile m (length l)) = list_prod l m.
Proof.
  induction l as [|x l IH]; [reflexivity|]. unfold PointsModel.np_repeat, PointsModel.tile in *. cbn [flat_map length repeat concat list_prod]. rewrite combine_app by apply repeat_length. rewrite combine_repeat, IH. reflexivity.
Qed.
Lemma list_prod_nodup {A B} (l : list A) (m : list B) : NoDup l -> NoDup m -> NoDup (list_prod l m).
Proof.
  intros L M. induction L as [|x l Hx L IH]; [constructor|]. cbn [list_prod]. 
  assert (D : NoDup (map (fun y => (x, y)) m)) by (apply FinFun.Injective_map_NoDup; [intros a b E; congruence|exact M]).
  revert D. assert (F : forall p, In p (map (fun y => (x, y)) m) -> ~ In p (list_prod l m)).
  { intros p I J. apply in_map_iff in I. destruct I as (y & <- & _). apply in_prod_iff in J. tauto. }
  revert F. generalize (map (fun y => (x, y)) m). intros k F D. induction D as [|z k Hz D IHk]; [exact IH|]. cbn [app]. constructor.
  - rewrite in_app_iff. intros [I|I]; [exact (Hz I)|]. exact (F z (or_introl eq_refl) I).
  - apply IHk. intros p I. apply F. right. exact I.
Qed.
Lemma nodup_map_in {A B} (f : A -> B) l : (forall a b, In a l -> In b l -> f a = f b -> a = b) -> NoDup l -> NoDup (map f l).
Proof.
  intros H D. induction D as [|x l Hx D IH]; [constructor|]. cbn [map]. constructor.
  - intros I. apply in_map_iff in I. destruct I as (y & E & Iy). apply Hx. rewrite (H x y); [exact Iy|left; reflexivity|right; exact Iy|symmetry; exact E].
  - apply IH. intros a b Ia Ib. apply H; right; assumption.
Qed.

(** * np.linspace *)
Definition stepping (n : nat) (endpoint : bool) : R := if endpoint then (if n =? 1 then 1 else INR n - 1) else INR n.
Lemma length_linspace a b n e : length (linspace a b n e) = n.
Proof. unfold linspace. rewrite map_length, seq_length. reflexivity. Qed.
Lemma nth_linspace a b n e i : (i < n)%nat -> nth_error (linspace a b n e) i = Some (a + INR i * ((b - a) / stepping n e)).
Proof. intros H. unfold linspace. apply nth_map_some with (f := fun i => a + INR i * ((b - a) / _)). rewrite nth_seq by exact H. reflexivity. Qed.
Lemma in_linspace a b n e x : In x (linspace a b n e) <-> exists i, (i < n)%nat /\ x = a + INR i * ((b - a) / stepping n e).
Proof.
  unfold linspace. rewrite in_map_iff. split.
  - intros (i & E & I). apply in_seq in I. exists i. split; [lia|]. symmetry. exact E.
  - intros (i & L & E). exists i. split; [symmetry; exact E|]. apply in_seq. lia.
Qed.
Lemma inr_pos n : (1 <= n)%nat -> 1 <= INR n.
Proof. intros H. change 1 with (INR 1). apply le_INR, H. Qed.
Lemma stepping_le n e i : (i < n)%nat -> 0 <= INR i / stepping n e <= 1 /\ 0 < stepping n e.
Proof.
  intros H. pose proof (pos_INR i) as Pi. assert (Pn : INR i + 1 <= INR n) by (rewrite <- S_INR; apply le_INR; lia). unfold stepping. destruct e.
  - destruct (Nat.eqb_spec n 1) as [->|N].
    + assert (i = 0)%nat by lia. subst i. cbn [INR]. split; lra.
    + assert (2 <= INR n) by (change 2 with (INR 2); apply le_INR; lia). assert (S0 : 0 < INR n - 1) by lra. split; [|exact S0]. split; [apply Rmult_le_pos; [exact Pi|left; apply Rinv_0_lt_compat, S0]|]. apply Rmult_le_reg_r with (INR n - 1); [exact S0|]. unfold Rdiv. rewrite Rmult_assoc, Rinv_l by lra. lra.
  - assert (S0 : 0 < INR n) by lra. split; [|exact S0]. split; [apply Rmult_le_pos; [exact Pi|left; apply Rinv_0_lt_compat, S0]|]. apply Rmult_le_reg_r with (INR n); [exact S0|]. unfold Rdiv. rewrite Rmult_assoc, Rinv_l by lra. lra.
Qed.
Lemma linspace_in a b n e x : a <= b -> In x (linspace a b n e) -> a <= x <= b.
Proof.
  intros H I. apply in_linspace in I. destruct I as (i & L & ->). destruct (stepping_le n e i L) as ((A & B) & C).
  replace (INR i * ((b - a) / stepping n e)) with ((INR i / stepping n e) * (b - a)) by (field; lra). set (q := INR i / stepping n e) in *. clearbody q.
  assert (0 <= q * (b - a)) by (apply Rmult_le_pos; lra). assert (q * (b - a) <= 1 * (b - a)) by (apply Rmult_le_compat_r; lra). lra.
Qed.
Lemma linspace_nodup a b n e : a <> b -> NoDup (linspace a b n e).
Proof.
  intros H. unfold linspace. apply nodup_map_in; [|apply seq_NoDup]. intros i j Hi Hj E. apply in_seq in Hi. apply in_seq in Hj. fold (stepping n e) in E. destruct (stepping_le n e i) as (_ & S); [lia|].
  apply INR_eq. assert (D : (b - a) / stepping n e <> 0) by (apply Rmult_integral_contrapositive_currified; [lra|apply Rinv_neq_0_compat; lra]). apply Rmult_eq_reg_r with ((b - a) / stepping n e); [lra|exact D].
Qed.

(** * Line *)
Lemma nth_line p0 p1 n i : (i < n)%nat -> nth_error (line_points p0 p1 n) i = Some (vadd p0 (vscale (INR i / stepping n true) (vsub p1 p0))).
Proof.
  intros H. unfold line_points. rewrite (nth_map_some _ _ _ _ (nth_linspace 0 1 n true i H)). f_equal. unfold line_point. f_equal. f_equal. destruct (stepping_le n true i H) as (_ & S). field. lra.
Qed.
(** n points, the first is p0, the last p1, and the steps between neighbours are equal; the
    coordinates used for fields on the line are the distances from p0. *)
Theorem C35_line : forall p0 p1 n,
  length (line_points p0 p1 n) = n /\
  ((1 <= n)%nat -> nth_error (line_points p0 p1 n) 0 = Some p0) /\
  ((2 <= n)%nat -> nth_error (line_points p0 p1 n) (n - 1) = Some p1) /\
  (forall i a b, nth_error (line_points p0 p1 n) i = Some a -> nth_error (line_points p0 p1 n) (S i) = Some b ->
     vsub b a = vdiv (vsub p1 p0) (INR n - 1)) /\
  (forall i a s, nth_error (line_points p0 p1 n) i = Some a -> nth_error (line_axis p0 p1 n) i = Some s -> s = norm (vsub a p0)).
Proof.
  intros p0 p1 n. assert (L : length (line_points p0 p1 n) = n) by (unfold line_points; rewrite map_length; apply length_linspace). split; [exact L|]. repeat split.
  - intros H. rewrite nth_line by lia. f_equal. cbn [INR]. destruct p0 as [x0 y0 z0], p1 as [x1 y1 z1]. unfold vadd, vscale, vsub. cbn [v0 v1 v2]. unfold Rdiv. f_equal; ring.
  - intros H. rewrite nth_line by lia. f_equal. unfold stepping. destruct (Nat.eqb_spec n 1) as [|N]; [lia|]. rewrite minus_INR by lia. cbn [INR]. assert (2 <= INR n) by (change 2 with (INR 2); apply le_INR; lia). destruct p0 as [x0 y0 z0], p1 as [x1 y1 z1]. unfold vadd, vscale, vsub. cbn [v0 v1 v2]. f_equal; field; lra.
  - intros i a b A B. assert (Hi : (S i < n)%nat) by (rewrite <- L; apply nth_error_Some; congruence). rewrite nth_line in A by lia. rewrite nth_line in B by lia. apply PointsProps.Some_inj in A. apply PointsProps.Some_inj in B. subst a b. unfold stepping. destruct (Nat.eqb_spec n 1) as [|N]; [lia|]. assert (2 <= INR n) by (change 2 with (INR 2); apply le_INR; lia). rewrite S_INR.
    destruct p0 as [x0 y0 z0], p1 as [x1 y1 z1]. unfold vadd, vscale, vsub, vdiv. cbn [v0 v1 v2]. f_equal; field; lra.
  - intros i a s A B. assert (Hi : (i < n)%nat) by (rewrite <- L; apply nth_error_Some; congruence). rewrite nth_line in A by lia. unfold line_axis in B. rewrite nth_linspace in B by lia. apply PointsProps.Some_inj in A. apply PointsProps.Some_inj in B. subst a s.
    destruct (stepping_le n true i Hi) as ((Q & _) & S). set (d := norm (vsub p1 p0)). replace (INR i * ((d - 0) / stepping n true)) with ((INR i / stepping n true) * d) by (field; lra). set (q := INR i / _) in *. clearbody q. rewrite Rplus_0_l. unfold d.
    assert (E : vsub (vadd p0 (vscale q (vsub p1 p0))) p0 = vscale q (vsub p1 p0)) by (destruct p0 as [x0 y0 z0], p1 as [x1 y1 z1]; unfold vadd, vscale, vsub; cbn [v0 v1 v2]; f_equal; ring). rewrite E. set (w := vsub p1 p0). unfold norm. cbn [vscale v0 v1 v2].
    replace (q * v0 w * (q * v0 w) + q * v1 w * (q * v1 w) + q * v2 w * (q * v2 w)) with ((q * q) * (v0 w * v0 w + v1 w * v1 w + v2 w * v2 w)) by ring. rewrite sqrt_mult; [rewrite sqrt_square by exact Q; reflexivity|apply Rmult_le_pos; exact Q|].
    pose proof (Rle_0_sqr (v0 w)). pose proof (Rle_0_sqr (v1 w)). pose proof (Rle_0_sqr (v2 w)). unfold Rsqr in *. lra.
Qed.
Print Assumptions C35_line.
Example C35_line_ex : nth_error (line_points (VEC 0 0 0) (VEC 3 6 9) 4) 2 = Some (VEC 2 4 6).
Proof. rewrite nth_line by lia. f_equal. unfold stepping, vadd, vscale, vsub. cbn [Nat.eqb INR v0 v1 v2]. f_equal; field. Qed.

(** * Spline *)
Lemma int_part_eq r z : IZR z <= r -> r < IZR z + 1 -> Int_part r = z.
Proof.
  intros A B. destruct (base_Int_part r) as (C & D). assert (IZR (Int_part r) < IZR (z + 1)) by (rewrite plus_IZR; lra). assert (IZR z < IZR (Int_part r + 1)) by (rewrite plus_IZR; lra).
  apply lt_IZR in H. apply lt_IZR in H0. lia.
Qed.
(** The points are at the parameters 0, 1/n, ..., (n-2)/n and 1: all steps are 1/n but the last one,
    which is 2/n. *)
Theorem C35_spline : forall curve knots n k i, (i < n)%nat ->
  nth_error (fst (spline_points curve knots n k)) i =
  Some (curve (match k with Some k => k | None => knots - 1 end)%nat
              (if (i =? n - 1) && negb (n =? 1) then 1 else INR i / INR n)).
Proof.
  intros curve knots n k i H. unfold spline_points. cbn [fst]. rewrite (nth_map_some _ _ _ _ (nth_linspace 0 1 n true i H)). f_equal. f_equal. unfold spline_index.
  assert (Pn : 1 <= INR n) by (apply inr_pos; lia). assert (Pi : 0 <= INR i) by apply pos_INR.
  assert (J : Int_part ((0 + INR i * ((1 - 0) / stepping n true)) * INR n) = Z.of_nat (if (i =? n - 1) && negb (n =? 1) then n else i)).
  { apply int_part_eq; rewrite <- INR_IZR_INZ; unfold stepping; (destruct (Nat.eqb_spec n 1) as [N|N];
    [assert (i = 0)%nat by lia; subst i n; cbn; lra|]; cbn [negb]; rewrite andb_true_r; assert (P2 : 2 <= INR n) by (change 2 with (INR 2); apply le_INR; lia); destruct (Nat.eqb_spec i (n - 1)) as [E|E];
    [rewrite E, minus_INR by lia; cbn [INR]; replace ((0 + (INR n - 1) * ((1 - 0) / (INR n - 1))) * INR n) with (INR n) by (field; lra); lra|];
    assert (Li : INR i + 2 <= INR n) by (change 2 with (INR 2); rewrite <- plus_INR; apply le_INR; lia); replace ((0 + INR i * ((1 - 0) / (INR n - 1))) * INR n) with (INR i + INR i / (INR n - 1)) by (field; lra);
    assert (Q : 0 <= INR i / (INR n - 1)) by (apply Rmult_le_pos; [lra|left; apply Rinv_0_lt_compat; lra]); assert (Q1 : INR i / (INR n - 1) < 1) by (apply Rmult_lt_reg_r with (INR n - 1); [lra|]; unfold Rdiv; rewrite Rmult_assoc, Rinv_l by lra; lra); lra). }
  rewrite J, Nat2Z.id. set (j := if (i =? n - 1) && negb (n =? 1) then n else i). assert (Hj : (j < n + 1)%nat) by (unfold j; destruct ((i =? n - 1) && negb (n =? 1)); lia).
  rewrite (nth_error_nth _ _ 0 (nth_linspace 0 1 (n + 1) true j Hj)). unfold stepping. replace (n + 1 =? 1) with false by (symmetry; apply Nat.eqb_neq; lia). rewrite plus_INR. cbn [INR]. unfold j. destruct ((i =? n - 1) && negb (n =? 1)); field; lra.
Qed.
Print Assumptions C35_spline.
(** ** C55 *)
(** Asking a spline twice: with a cache, or when no degree was given, the answers are the same; *)
Theorem C55_spline : forall curve knots n cache st, cache = true \/ sp_k st = None \/ sp_k st = Some (knots - 1)%nat ->
  let (l, st') := spline_get_points curve knots n cache st in fst (spline_get_points curve knots n cache st') = l.
Proof.
  intros curve knots n cache [k pts] H. unfold spline_get_points. cbn [sp_k sp_points] in *. destruct pts as [l|]; [reflexivity|]. destruct (spline_points curve knots n k) as (l, k') eqn:E. unfold spline_points in E. injection E as <- <-. destruct H as [->|[->| ->]]; [reflexivity| |]; destruct cache; reflexivity.
Qed.
Print Assumptions C55_spline.
(** otherwise the second answer is another curve. *)
Theorem C55_spline_refuted : forall curve knots n k, (1 <= n)%nat -> curve k 0 <> curve (knots - 1)%nat 0 ->
  let (l, st') := spline_get_points curve knots n false (SPL (Some k) None) in fst (spline_get_points curve knots n false st') <> l.
Proof.
  intros curve knots n k Hn H. unfold spline_get_points. cbn [sp_k sp_points]. destruct (spline_points curve knots n (Some k)) as (l, k') eqn:E. cbn [sp_k sp_points]. assert (k' = None) by (unfold spline_points in E; congruence). subst k'.
  assert (A := C35_spline curve knots n (Some k) 0 ltac:(lia)). assert (B := C35_spline curve knots n None 0 ltac:(lia)). rewrite E in A. cbn [fst] in A. destruct (spline_points curve knots n None) as (l', k''). cbn [fst] in *. intros ->. rewrite A in B. apply PointsProps.Some_inj in B. apply H.
  assert (Z : (if (0 =? n - 1) && negb (n =? 1) then 1 else INR 0 / INR n) = 0) by (destruct (Nat.eqb_spec n 1) as [->|]; [cbn; field|]; replace (0 =? n - 1) with false by (symmetry; apply Nat.eqb_neq; lia); cbn [andb INR]; unfold Rdiv; ring). rewrite Z in B. exact B.
Qed.
Print Assumptions C55_spline_refuted.
(** Asking point seeds twice, for arrays of two dimensions: the points replace the argument. *)
Theorem C55_point : forall {A} (arr pts : list (list A)) ncol m, (forall r, In r arr -> length r = ncol) ->
  PointsModel.point_points arr ncol = Some pts -> PointsModel.point_points pts m = Some pts.
Proof.
  intros A arr pts ncol m Hr. unfold PointsModel.point_points. destruct (Nat.eqb_spec (length arr) 3) as [E|E].
  - intros H. apply PointsProps.Some_inj in H. subst pts. rewrite E. reflexivity.
  - destruct (Nat.eqb_spec ncol 3) as [->|]; [|discriminate]. intros H. apply PointsProps.Some_inj in H. subst pts. unfold PointsModel.transpose. rewrite map_length, seq_length. reflexivity.
Qed.
Print Assumptions C55_point.

(** * Plane *)
Lemma normalize_spec v u : normalize v = Some u -> norm v <> 0 /\ u = unitv v /\ vdot u u = 1.
Proof. unfold normalize. destruct (Req_EM_T (norm v) 0) as [|N]; [discriminate|]. intros E. apply PointsProps.Some_inj in E. subst u. split; [exact N|]. split; [reflexivity|apply vdot_unit, N]. Qed.
Lemma norm_zero v : norm v = 0 <-> v = VEC 0 0 0.
Proof.
  split; [|intros ->; unfold norm; cbn [v0 v1 v2]; transitivity (sqrt 0); [f_equal; ring|apply sqrt_0]].
  intros H. pose proof (norm_sq v) as E. rewrite H in E. destruct v as [x y z]. unfold vdot in E. cbn [v0 v1 v2] in E. pose proof (Rle_0_sqr x). pose proof (Rle_0_sqr y). pose proof (Rle_0_sqr z). unfold Rsqr in *.
  f_equal; apply Rsqr_0_uniq; unfold Rsqr; lra.
Qed.
(* a length is centred on p0 *)
Definition span (e : extent) : R * R := match e with Length len => (- (len / 2), len / 2) | Limits lo hi => (lo, hi) end.
Lemma limits_span e : limits e = span e.
Proof. destruct e as [len|lo hi]; unfold limits, span; [f_equal; field|reflexivity]. Qed.
(** the frame of the plane *)
Record lmn (n l : vec) (p : plane) : Prop := {
  lmn_N : pl_N p = unitv n;
  lmn_M : pl_M p = cross (pl_N p) (pl_L p);
  lmn_L1 : vdot (pl_L p) (pl_L p) = 1;
  lmn_LN : vdot (pl_L p) (pl_N p) = 0;
  (* L is in the half plane of N and the vector given for L *)
  lmn_Lg : exists c d, 0 < c /\ pl_L p = vadd (vscale c l) (vscale d (pl_N p))
}.
Theorem C35_plane_frame : forall p0 pN pL ll lm nl nm (vectors : bool),
  let n := if vectors then pN else vsub pN p0 in let l := if vectors then pL else vsub pL p0 in
  cross n l <> VEC 0 0 0 ->
  exists p, make_plane p0 pN pL ll lm nl nm vectors = IsPlane p /\ lmn n l p /\ rotation (plane_rotation p) /\
            pl_p0 p = p0 /\ pl_nl p = nl /\ pl_nm p = nm /\ pl_l p = span ll /\ pl_m p = span lm.
Proof.
  intros p0 pN pL ll lm nl nm vectors n l Hc. unfold make_plane. fold n l. clearbody n l.
  assert (Nn : norm n <> 0) by (intros E; apply Hc; apply norm_zero in E; subst n; unfold cross; cbn [v0 v1 v2]; f_equal; ring).
  assert (En : normalize n = Some (unitv n)) by (unfold normalize; destruct (Req_EM_T (norm n) 0) as [|_]; [congruence|reflexivity]). rewrite En. cbn zeta beta iota. pose proof (vdot_unit n Nn) as U. fold (unitv n) in U. set (u := unitv n) in *.
  set (w := vsub l (vscale (vdot l u) u)).
  assert (Nw : norm w <> 0).
  { intros E. apply Hc. apply norm_zero in E. assert (L : l = vscale (vdot l u) u) by (destruct l as [a b c]; destruct u as [x y z]; unfold w, vsub, vscale in *; cbn [v0 v1 v2] in *; injection E as E0 E1 E2; f_equal; lra).
    assert (V : n = vscale (norm n) u) by (unfold u, unitv, vdiv, vscale; destruct n as [x y z]; cbn [v0 v1 v2]; f_equal; field; exact Nn). rewrite L. rewrite V. unfold cross, vscale. cbn [v0 v1 v2]. f_equal; ring. }
  assert (Wu : vdot w u = 0) by (unfold w; transitivity (vdot l u * (1 - vdot u u)); [unfold vdot, vsub, vscale; cbn [v0 v1 v2]; ring|rewrite U; ring]).
  assert (Ew : normalize w = Some (vdiv w (norm w))) by (unfold normalize; destruct (Req_EM_T (norm w) 0) as [|_]; [congruence|reflexivity]). rewrite Ew. pose proof (vdot_unit w Nw) as UL. set (L := vdiv w (norm w)) in *.
  assert (LN : vdot L u = 0) by (unfold L; transitivity (vdot w u / norm w); [unfold vdot, vdiv; cbn [v0 v1 v2]; field; exact Nw|rewrite Wu; field; exact Nw]).
  cbn [lift2].
  assert (MM : vdot (cross u L) (cross u L) = 1) by (pose proof (cross_sq u L) as E; assert (vdot u L = 0) by (unfold vdot in *; lra); rewrite U, UL, H in E; lra).
  assert (A0 : allclose0 (Some (cross u L)) = false).
  { unfold allclose0. destruct (isclose (v0 (cross u L)) 0) eqn:I0; [|reflexivity]. destruct (isclose (v1 (cross u L)) 0) eqn:I1; [|reflexivity]. destruct (isclose (v2 (cross u L)) 0) eqn:I2; [|reflexivity]. exfalso.
    assert (B : forall x, isclose x 0 = true -> x * x <= 1 / 10).
    { intros x H. unfold isclose in H. destruct (Rle_dec _ _) as [Q|]; [|discriminate]. rewrite Rminus_0_r, Rabs_R0 in Q. assert (Rabs x <= 1 / 10) by (cbn [pow] in Q; lra). rewrite <- (Rabs_right (x * x)) by (pose proof (Rle_0_sqr x); unfold Rsqr in *; lra). rewrite Rabs_mult. assert (Rabs x * Rabs x <= 1 / 10 * 1) by (apply Rmult_le_compat; try apply Rabs_pos; lra). lra. }
    apply B in I0. apply B in I1. apply B in I2. unfold vdot in MM. lra. }
  rewrite A0. eexists. split; [reflexivity|]. split; [|split; [|cbn [pl_p0 pl_nl pl_nm pl_l pl_m]; auto using limits_span]].
  - split; cbn [pl_N pl_M pl_L]; auto. exists (/ norm w), (- vdot l u / norm w). split; [apply Rinv_0_lt_compat; pose proof (norm_pos w); lra|]. unfold L, w, vdiv, vadd, vscale, vsub. cbn [v0 v1 v2]. f_equal; field; exact Nw.
  - unfold plane_rotation. cbn [pl_L pl_M pl_N]. apply rotation_transpose. clearbody u L. clear - U UL LN. destruct u as [a b c], L as [x y z]. unfold vdot, cross in *. cbn [v0 v1 v2] in *.
    assert (X : mmul (MAT x y z (b * z - c * y) (c * x - a * z) (a * y - b * x) a b c) (R3.transpose (MAT x y z (b * z - c * y) (c * x - a * z) (a * y - b * x) a b c)) = eye).
    { mcbn. f_equal; try lra; try ring.
      transitivity ((a * a + b * b + c * c) * (x * x + y * y + z * z) - (x * a + y * b + z * c) * (x * a + y * b + z * c)); [ring|]. rewrite U, UL, LN. ring. }
    split; [exact X|]. unfold det. cbn [m00 m01 m02 m10 m11 m12 m20 m21 m22]. transitivity ((a * a + b * b + c * c) * (x * x + y * y + z * z) - (x * a + y * b + z * c) * (x * a + y * b + z * c)); [ring|]. rewrite U, UL, LN. ring.
Qed.
Print Assumptions C35_plane_frame.
(** The documented RuntimeError for parallel directions is never raised: they give nan points. *)
Theorem C35_plane_parallel_refuted : forall p0 pN pL ll lm nl nm (vectors : bool),
  let n := if vectors then pN else vsub pN p0 in let l := if vectors then pL else vsub pL p0 in
  cross n l = VEC 0 0 0 -> make_plane p0 pN pL ll lm nl nm vectors = NanPlane.
Proof.
  intros p0 pN pL ll lm nl nm vectors n l Hc. unfold make_plane. fold n l. clearbody n l. destruct (normalize n) as [u|] eqn:E; [|reflexivity]. destruct (normalize_spec _ _ E) as (Nn & -> & U).
  destruct (normalize (vsub l (vscale (vdot l (unitv n)) (unitv n)))) as [L|] eqn:F; [|reflexivity]. exfalso. destruct (normalize_spec _ _ F) as (Nw & _ & _). apply Nw. apply norm_zero.
  set (u := unitv n) in *. assert (V : n = vscale (norm n) u) by (unfold u, unitv, vdiv, vscale; destruct n as [x y z]; cbn [v0 v1 v2]; f_equal; field; exact Nn).
  assert (C : cross u l = VEC 0 0 0).
  { assert (X : cross u l = vscale (/ norm n) (cross n l)) by (rewrite V at 2; unfold cross, vscale; cbn [v0 v1 v2]; f_equal; field; exact Nn). rewrite X, Hc. unfold vscale. cbn [v0 v1 v2]. f_equal; ring. }
  assert (D : vsub l (vscale (vdot l u) u) = vscale (-1) (cross u (cross u l))).
  { transitivity (vsub (vscale (vdot u u) l) (vscale (vdot l u) u)); [rewrite U; destruct l as [a b c]; unfold vsub, vscale; cbn [v0 v1 v2]; f_equal; ring|]. unfold vsub, vscale, vdot, cross. cbn [v0 v1 v2]. f_equal; ring. }
  rewrite D, C. unfold cross, vscale. cbn [v0 v1 v2]. f_equal; ring.
Qed.
Print Assumptions C35_plane_parallel_refuted.

(** Every point is the origin plus the axes times coordinates from the two linspaces; so it lies in the plane, and
    there are nl * nm.  Going back and forth between local and 3d coordinates changes nothing. *)
Lemma mapply_cols l m n x : mapply (R3.transpose (MAT (v0 l) (v1 l) (v2 l) (v0 m) (v1 m) (v2 m) (v0 n) (v1 n) (v2 n))) x = vadd (vscale (v0 x) l) (vadd (vscale (v1 x) m) (vscale (v2 x) n)).
Proof. unfold mapply, R3.transpose, vadd, vscale. cbn [m00 m01 m02 m10 m11 m12 m20 m21 m22 v0 v1 v2]. f_equal; ring. Qed.
Theorem C35_plane : forall n l p, lmn n l p -> rotation (plane_rotation p) ->
  length (plane_points p) = (pl_nl p * pl_nm p)%nat /\
  (forall q, In q (plane_points p) <-> exists a b, In a (linspace (fst (pl_l p)) (snd (pl_l p)) (pl_nl p) true) /\ In b (linspace (fst (pl_m p)) (snd (pl_m p)) (pl_nm p) true) /\
     q = vadd (pl_p0 p) (vadd (vscale a (pl_L p)) (vscale b (pl_M p)))) /\
  (forall q, In q (plane_points p) -> vdot (vsub q (pl_p0 p)) n = 0) /\
  (forall x, plane_to_local p (plane_to_3d p x) = x /\ plane_to_3d p (plane_to_local p x) = x).
Proof.
  intros n l p F Ro. assert (P : plane_local p = map (fun lm => VEC (fst lm) (snd lm) 0) (list_prod (linspace (fst (pl_l p)) (snd (pl_l p)) (pl_nl p) true) (linspace (fst (pl_m p)) (snd (pl_m p)) (pl_nm p) true))).
  { unfold plane_local, plane_axes. f_equal. rewrite <- grid_prod, !length_linspace. reflexivity. }
  assert (I : forall q, In q (plane_points p) <-> exists a b, In a (linspace (fst (pl_l p)) (snd (pl_l p)) (pl_nl p) true) /\ In b (linspace (fst (pl_m p)) (snd (pl_m p)) (pl_nm p) true) /\ q = vadd (pl_p0 p) (vadd (vscale a (pl_L p)) (vscale b (pl_M p)))).
  { intros q. unfold plane_points. rewrite P, map_map, in_map_iff. assert (E : forall a b, plane_to_3d p (VEC a b 0) = vadd (pl_p0 p) (vadd (vscale a (pl_L p)) (vscale b (pl_M p)))) by (intros a b; unfold plane_to_3d, plane_rotation; rewrite mapply_cols; f_equal; unfold vadd, vscale; cbn [v0 v1 v2]; f_equal; ring).
    split.
    - intros ((a, b) & <- & J). apply in_prod_iff in J. exists a, b. cbn [fst snd]. rewrite E. tauto.
    - intros (a & b & A & B & ->). exists (a, b). cbn [fst snd]. rewrite E. split; [reflexivity|]. apply in_prod_iff. tauto. }
  split; [unfold plane_points; rewrite P, !map_length, prod_length, !length_linspace; reflexivity|]. split; [exact I|]. split.
  - intros q J. apply I in J. destruct J as (a & b & _ & _ & ->). pose proof (lmn_LN _ _ _ F) as LN. pose proof (lmn_M _ _ _ F) as M. pose proof (lmn_N _ _ _ F) as N. 
    assert (V : vdot (pl_L p) n = 0 /\ vdot (pl_M p) n = 0).
    { destruct (Req_dec (norm n) 0) as [Z|Z].
      - apply norm_zero in Z. subst n. unfold vdot. cbn [v0 v1 v2]. lra.
      - assert (Vn : n = vscale (norm n) (pl_N p)) by (rewrite N; unfold unitv, vdiv, vscale; destruct n as [x y z]; cbn [v0 v1 v2]; f_equal; field; exact Z). rewrite Vn. split; [transitivity (norm n * vdot (pl_L p) (pl_N p)); [unfold vdot, vscale; cbn [v0 v1 v2]; ring|rewrite LN; ring]|]. rewrite M. unfold vdot, vscale, cross. cbn [v0 v1 v2]. ring. }
    destruct V as (V1 & V2). transitivity (a * vdot (pl_L p) n + b * vdot (pl_M p) n); [unfold vdot, vsub, vadd, vscale; cbn [v0 v1 v2]; ring|]. rewrite V1, V2. ring.
  - intros x. unfold plane_to_local, plane_to_3d. split.
    + transitivity (mapply (R3.transpose (plane_rotation p)) (mapply (plane_rotation p) x)); [f_equal; unfold vsub, vadd; cbn [v0 v1 v2]; destruct (mapply (plane_rotation p) x) as [a b c]; cbn [v0 v1 v2]; f_equal; ring|]. rewrite <- mapply_mmul, rotation_left by exact Ro. apply mapply_eye.
    + rewrite <- mapply_mmul, (proj1 Ro), mapply_eye. destruct x as [a b c]. unfold vsub, vadd. cbn [v0 v1 v2]. f_equal; ring.
Qed.
Print Assumptions C35_plane.
(* a tilted plane *)
Example C35_plane_ex : cross (VEC 1 1 0) (VEC 1 0 1) <> VEC 0 0 0.
Proof. unfold cross. cbn [v0 v1 v2]. intros E. injection E as E0 E1 E2. lra. Qed.
(** * Volume *)
Lemma in_product {A} (crds : list (list A)) : forall p, In p (PointsModel.iter_points crds) <-> Forall2 (fun x c => In x c) p crds.
Proof.
  induction crds as [|c crds IH]; intros p.
  - cbn. split; [intros [<-|[]]; constructor|]. intros H. inversion H. left. reflexivity.
  - cbn [PointsModel.iter_points]. rewrite in_flat_map. split.
    + intros (x & Ix & I). apply in_map_iff in I. destruct I as (q & <- & Iq). constructor; [exact Ix|]. apply IH, Iq.
    + intros H. inversion H as [|x c' q crds' Hx Hq]. subst. exists x. split; [exact Hx|]. apply in_map. apply IH, Hq.
Qed.
Definition inside (lo hi x : R) : Prop := lo <= x <= hi.
(** The product of the counts, all points in the box, and both corners among them. *)
Theorem C35_volume : forall xl xh nx ny nz,
  length (volume_points xl xh nx ny nz) = (nx * ny * nz)%nat /\
  (v0 xl <= v0 xh -> v1 xl <= v1 xh -> v2 xl <= v2 xh -> forall p, In p (volume_points xl xh nx ny nz) ->
     exists x y z, p = [x; y; z] /\ inside (v0 xl) (v0 xh) x /\ inside (v1 xl) (v1 xh) y /\ inside (v2 xl) (v2 xh) z) /\
  ((1 <= nx)%nat -> (1 <= ny)%nat -> (1 <= nz)%nat -> In [v0 xl; v1 xl; v2 xl] (volume_points xl xh nx ny nz)) /\
  ((2 <= nx)%nat -> (2 <= ny)%nat -> (2 <= nz)%nat -> In [v0 xh; v1 xh; v2 xh] (volume_points xl xh nx ny nz)).
Proof.
  intros xl xh nx ny nz. unfold volume_points. split; [|split; [|split]].
  - rewrite PointsProps.length_product. unfold PointsProps.shape_of, volume_axes. cbn [map]. rewrite !length_linspace, PointsProps.volume_prod. unfold PointsModel.np_prod. cbn [fold_right]. lia.
  - intros A B C p I. apply in_product in I. unfold volume_axes in I. inversion I as [|x c q cs Hx Hq]. subst. inversion Hq as [|y d q' ds Hy Hq']. subst. inversion Hq' as [|z e q'' es Hz Hq'']. subst. inversion Hq''. subst. exists x, y, z. split; [reflexivity|]. unfold inside. split; [|split]; eapply linspace_in; eauto.
  - intros A B C. apply in_product. unfold volume_axes. repeat constructor; apply in_linspace; exists 0%nat; (split; [lia|cbn [INR]; ring]).
  - intros A B C. apply in_product. unfold volume_axes.
    assert (H : forall a b n, (2 <= n)%nat -> In b (linspace a b n true)).
    { intros a b n H. apply in_linspace. exists (n - 1)%nat. split; [lia|]. unfold stepping. replace (n =? 1) with false by (symmetry; apply Nat.eqb_neq; lia). rewrite minus_INR by lia. cbn [INR]. assert (2 <= INR n) by (change 2 with (INR 2); apply le_INR; lia). field. lra. }
    repeat constructor; apply H; assumption.
Qed.
Print Assumptions C35_volume.

(** * Sphere *)
Lemma combine_map {A B C} (f : A -> B) (g : A -> C) l : combine (map f l) (map g l) = map (fun x => (f x, g x)) l.
Proof. induction l as [|x l IH]; [reflexivity|]. cbn. rewrite IH. reflexivity. Qed.
Lemma rev_map_seq {B} (f : nat -> B) n : rev (map f (seq 0 n)) = map (fun i => f (n - 1 - i)%nat) (seq 0 n).
Proof.
  destruct n as [|n]; [reflexivity|]. apply nth_ext with (d := f 0%nat) (d' := f 0%nat); [rewrite rev_length, !map_length; reflexivity|]. rewrite rev_length, map_length, seq_length. intros i H. rewrite rev_nth by (rewrite map_length, seq_length; exact H). rewrite map_length, seq_length, map_nth, seq_nth by lia.
  rewrite (nth_indep _ (f 0%nat) (f (S n - 1 - 0)%nat)) by (rewrite map_length, seq_length; exact H). rewrite (map_nth (fun i => f (S n - 1 - i)%nat)), seq_nth by exact H. f_equal. lia.
Qed.
(** first offset and number of intervals, by the endpoints included *)
Definition offset (e : bool * bool) : R := match e with (true, _) => 0 | (false, true) => 1 | (false, false) => 1 / 2 end.
Definition intervals (n : nat) (e : bool * bool) : R := if fst e && snd e then (if n =? 1 then 1 else INR n - 1) else INR n.
Lemma theta_axis_eq s : theta_axis s =
  map (fun i => fst (s_theta s) + (INR i + offset (theta_endpoints s)) * ((snd (s_theta s) - fst (s_theta s)) / intervals (s_ntheta s) (theta_endpoints s))) (seq 0 (s_ntheta s)).
Proof.
  unfold theta_axis. destruct (s_theta s) as (t0, t1). cbn [fst snd]. set (n := s_ntheta s). destruct (theta_endpoints s) as (lo, hi). destruct lo, hi; unfold linspace, offset, intervals; cbn [fst snd andb].
  - apply map_ext. intros i. f_equal. f_equal. ring.
  - apply map_ext. intros i. f_equal. f_equal. ring.
  - rewrite rev_map_seq. apply map_ext_in. intros i Hi. apply in_seq in Hi. assert (Pn : 1 <= INR n) by (apply inr_pos; lia). rewrite !minus_INR by lia. cbn [INR]. field. lra.
  - replace (n + 1)%nat with (S n) by lia. replace (S n =? 1) with (n =? 0) by reflexivity. rewrite seq_S at 2. rewrite map_app. cbn [map]. rewrite removelast_last. cbn [seq map tl]. rewrite <- seq_shift, map_map, combine_map, map_map. apply map_ext_in. intros i Hi. apply in_seq in Hi. cbn [fst snd]. replace (n =? 0) with false by (symmetry; apply Nat.eqb_neq; lia).
    assert (Pn : 1 <= INR n) by (apply inr_pos; lia). rewrite !S_INR. field. lra.
Qed.
(** ** specification *)
Lemma length_theta s : length (theta_axis s) = s_ntheta s.
Proof. rewrite theta_axis_eq, map_length, seq_length. reflexivity. Qed.
Lemma length_phi s : length (phi_axis s) = s_nphi s.
Proof. apply length_linspace. Qed.
Lemma angles_eq s : sphere_angles s = if s_theta_phi s then list_prod (theta_axis s) (phi_axis s) else map (fun pt => (snd pt, fst pt)) (list_prod (phi_axis s) (theta_axis s)).
Proof. unfold sphere_angles. rewrite <- !grid_prod, length_theta, length_phi. reflexivity. Qed.
Lemma in_angles s t p : In (t, p) (sphere_angles s) <-> In t (theta_axis s) /\ In p (phi_axis s).
Proof.
  rewrite angles_eq. destruct (s_theta_phi s); [apply in_prod_iff|]. rewrite in_map_iff. split.
  - intros ((a, b) & E & I). injection E as <- <-. apply in_prod_iff in I. cbn [fst snd]. tauto.
  - intros (A & B). exists (p, t). split; [reflexivity|]. apply in_prod_iff. tauto.
Qed.
Lemma norm_on_sphere r t p : vdot (on_sphere r t p) (on_sphere r t p) = r * r.
Proof.
  unfold vdot, on_sphere. cbn [v0 v1 v2]. pose proof (sc1 t) as A. pose proof (sc1 p) as B. set (s := sin t) in *. set (c := cos t) in *. set (x := cos p) in *. set (y := sin p) in *. clearbody s c x y.
  transitivity (r * r * (s * s * (y * y + x * x) + c * c)); [ring|]. rewrite B. transitivity (r * r * (s * s + c * c)); [ring|]. rewrite A. ring.
Qed.
Lemma pole_ok s : vdot (s_pole s) (s_pole s) = 1 -> rotation (sphere_rotation s) /\ (clear_pair (VEC 0 0 1) (s_pole s) -> mapply (sphere_rotation s) (VEC 0 0 1) = s_pole s).
Proof.
  intros P. unfold sphere_rotation. assert (Z : vdot (VEC 0 0 1) (VEC 0 0 1) = 1) by (unfold vdot; cbn [v0 v1 v2]; ring). pose proof (norm_1 _ P) as N. pose proof (norm_1 _ Z) as NZ.
  assert (U : forall v, norm v = 1 -> unitv v = v) by (intros v E; unfold unitv; rewrite E; apply vdiv_1).
  destruct (C51_a2b (VEC 0 0 1) (s_pole s) (s_roll s) Deg) as (A & B); [lra|lra|]. rewrite !U in B by assumption. split; assumption.
Qed.
Lemma norm_iso r x : rotation r -> norm (mapply r x) = norm x.
Proof. intros H. unfold norm. fold (vdot (mapply r x) (mapply r x)) (vdot x x). rewrite C19_isometry by exact H. reflexivity. Qed.
Lemma vadd_sub p x : vsub (vadd p x) p = x.
Proof. destruct x as [a b c]. unfold vsub, vadd. cbn [v0 v1 v2]. f_equal; ring. Qed.
Lemma made p0 r pole iv nt np tl pl te pe tp roll gse cap s : make_sphere p0 r pole iv nt np tl pl te pe tp roll gse cap = Some s ->
  let d := if iv then pole else vsub pole p0 in
  norm d <> 0 /\ s_p0 s = p0 /\ s_r s = (if Req_EM_T r 0 then norm d else r) /\ s_pole s = unitv d /\ s_ntheta s = nt /\ s_nphi s = np /\
  s_theta s = (deg2rad (fst tl), deg2rad (snd tl)) /\ s_phi s = (deg2rad (fst pl), deg2rad (snd pl)) /\ s_tend s = te /\ s_pend s = pe /\ s_theta_phi s = tp /\ s_cap s = cap /\ vdot (s_pole s) (s_pole s) = 1.
Proof.
  unfold make_sphere. cbv zeta. set (d := if iv then pole else vsub pole p0). destruct (normalize d) as [u|] eqn:E; [|discriminate]. destruct (normalize_spec _ _ E) as (N & -> & U). intros H. apply PointsProps.Some_inj in H. subst s. cbn. auto 20.
Qed.
(** Every seed is at the radius from the centre (the length of the pole when no radius is given),
    and the angle from the pole is the theta of its mesh point; theta stays in its limits, evenly
    spaced; there are ntheta * nphi seeds. *)
Theorem C35_sphere : forall p0 r pole (iv : bool) nt np tl pl te pe tp roll gse cap s,
  make_sphere p0 r pole iv nt np tl pl te pe tp roll gse cap = Some s ->
  let d := if iv then pole else vsub pole p0 in
  length (sphere_points s) = (nt * np)%nat /\
  (forall q, In q (sphere_points s) -> norm (vsub q p0) = if Req_EM_T r 0 then norm d else Rabs r) /\
  (clear_pair (VEC 0 0 1) (unitv d) -> forall q, In q (sphere_points s) -> exists t, In t (theta_axis s) /\ vdot (vsub q p0) (unitv d) = (if Req_EM_T r 0 then norm d else r) * cos t) /\
  (fst tl <= snd tl -> forall t, In t (theta_axis s) -> deg2rad (fst tl) <= t <= deg2rad (snd tl)) /\
  (forall i a b, nth_error (theta_axis s) i = Some a -> nth_error (theta_axis s) (S i) = Some b -> b - a = (deg2rad (snd tl) - deg2rad (fst tl)) / intervals nt (theta_endpoints s)).
Proof.
  intros p0 r pole iv nt np tl pl te pe tp roll gse cap s H. pose proof (made _ _ _ _ _ _ _ _ _ _ _ _ _ _ _ H) as M. clear H. cbv zeta in *. set (d := if iv then pole else vsub pole p0) in *. clearbody d. destruct M as (Nd & Ep & Er & Eo & Et & Eh & Elt & Elp & _ & _ & _ & _ & U).
  destruct (pole_ok s U) as (Ro & Cl).
  assert (Q : forall q, In q (sphere_points s) -> exists t p, In t (theta_axis s) /\ vsub q p0 = mapply (sphere_rotation s) (on_sphere (s_r s) t p)).
  { intros q I. unfold sphere_points in I. apply in_map_iff in I. destruct I as ((t, p) & <- & I). apply in_angles in I. exists t, p. split; [apply I|]. unfold sphere_to_3d. cbn [fst snd]. rewrite Ep. apply vadd_sub. }
  split; [|split; [|split; [|split]]].
  - unfold sphere_points. rewrite map_length, angles_eq, <- Et, <- Eh. destruct (s_theta_phi s); rewrite ?map_length, prod_length, length_theta, length_phi; lia.
  - intros q I. destruct (Q q I) as (t & p & _ & E). rewrite E. unfold norm at 1. fold (vdot (mapply (sphere_rotation s) (on_sphere (s_r s) t p)) (mapply (sphere_rotation s) (on_sphere (s_r s) t p))). rewrite C19_isometry by exact Ro. rewrite norm_on_sphere, Er. destruct (Req_EM_T r 0); [apply sqrt_square, norm_pos|apply sqrt_Rsqr_abs].
  - intros C q I. destruct (Q q I) as (t & p & It & E). exists t. split; [exact It|]. rewrite E, <- Eo. rewrite <- Cl at 1 by (rewrite Eo; exact C). rewrite C19_isometry by exact Ro. rewrite <- Er. unfold vdot, on_sphere. cbn [v0 v1 v2]. ring.
  - intros L t I. rewrite theta_axis_eq, Elt, Et in I. cbn [fst snd] in I. apply in_map_iff in I. destruct I as (i & <- & Hi). apply in_seq in Hi.
    assert (L' : deg2rad (fst tl) <= deg2rad (snd tl)) by (unfold deg2rad; apply Rmult_le_compat_r; [pose proof PI_RGT_0; lra|exact L]). set (t0 := deg2rad (fst tl)) in *. set (t1 := deg2rad (snd tl)) in *. clearbody t0 t1.
    assert (Pi : 0 <= INR i) by apply pos_INR. assert (Pn : INR i + 1 <= INR nt) by (rewrite <- S_INR; apply le_INR; lia).
    assert (W : 0 <= INR i + offset (theta_endpoints s) <= intervals nt (theta_endpoints s) /\ 0 < intervals nt (theta_endpoints s)).
    { destruct (theta_endpoints s) as (lo, hi). unfold offset, intervals. cbn [fst snd]. destruct lo, hi; cbn [andb]; try (split; lra). destruct (Nat.eqb_spec nt 1) as [->|]; [assert (i = 0)%nat by lia; subst i; cbn [INR]; lra|]. assert (2 <= INR nt) by (change 2 with (INR 2); apply le_INR; lia). lra. }
    destruct W as (W & W0). set (k := INR i + offset (theta_endpoints s)) in *. set (N := intervals nt (theta_endpoints s)) in *. clearbody k N. assert (Q0 : 0 <= k / N) by (apply Rmult_le_pos; [lra|left; apply Rinv_0_lt_compat, W0]). assert (Q1 : k / N <= 1) by (apply Rmult_le_reg_r with N; [exact W0|]; unfold Rdiv; rewrite Rmult_assoc, Rinv_l by lra; lra).
    replace (k * ((t1 - t0) / N)) with (k / N * (t1 - t0)) by (field; lra). set (c := k / N) in *. clearbody c. assert (0 <= c * (t1 - t0)) by (apply Rmult_le_pos; lra). assert (c * (t1 - t0) <= 1 * (t1 - t0)) by (apply Rmult_le_compat_r; lra). lra.
  - intros i a b A B. assert (Hi : (S i < s_ntheta s)%nat) by (rewrite <- length_theta; apply nth_error_Some; congruence). rewrite theta_axis_eq, Elt, Et in A, B. cbn [fst snd] in *. 
    rewrite (nth_map_some _ _ _ _ (nth_seq 0 nt i ltac:(lia))) in A. rewrite (nth_map_some _ _ _ _ (nth_seq 0 nt (S i) ltac:(lia))) in B. apply PointsProps.Some_inj in A. apply PointsProps.Some_inj in B. subst a b. rewrite !Nat.add_0_l, S_INR. ring.
Qed.
Print Assumptions C35_sphere.
(** ** Circle *)
Lemma deg_90 : deg2rad 90 = PI / 2.
Proof. unfold deg2rad. field. Qed.
(** Point i is the centre plus the radius times a unit vector in the plane perpendicular to the pole,
    at an angle that grows by equal steps; the steps divide the whole circle in n when philim is the
    default. *)
Theorem C35_circle : forall p0 r pole iv n philim pend tp roll gse s,
  make_circle p0 r pole iv n philim pend tp roll gse = Some s -> clear_pair (VEC 0 0 1) (s_pole s) ->
  exists X Y, vdot X X = 1 /\ vdot Y Y = 1 /\ vdot X Y = 0 /\ vdot X (s_pole s) = 0 /\ vdot Y (s_pole s) = 0 /\
  length (sphere_points s) = n /\
  forall i, (i < n)%nat ->
    let phi := deg2rad (fst philim) + INR i * ((deg2rad (snd philim) - deg2rad (fst philim)) / stepping n (phi_endpoint s)) in
    nth_error (sphere_points s) i = Some (vadd p0 (vscale (s_r s) (vadd (vscale (cos phi) X) (vscale (sin phi) Y)))).
Proof.
  intros p0 r pole iv n philim pend tp roll gse s H C. unfold make_circle, make_cap in H. pose proof (made _ _ _ _ _ _ _ _ _ _ _ _ _ _ _ H) as M. clear H. cbv zeta in M. destruct M as (_ & Ep & _ & _ & Et & Eh & Elt & Elp & Ete & _ & Etp & Ecap & U). destruct (pole_ok s U) as (Ro & Cl). specialize (Cl C).
  exists (mapply (sphere_rotation s) (VEC 1 0 0)), (mapply (sphere_rotation s) (VEC 0 1 0)). rewrite <- Cl. rewrite !C19_isometry by exact Ro.
  assert (Th : theta_axis s = [PI / 2]).
  { rewrite theta_axis_eq, Et, Elt. cbn [seq map fst snd INR]. unfold theta_endpoints. rewrite Ete, Ecap. cbn [offset intervals]. unfold intervals. cbn [fst snd andb INR]. rewrite deg_90. f_equal. field. }
  assert (An : sphere_angles s = map (fun p => (PI / 2, p)) (phi_axis s)).
  { rewrite angles_eq, Th. destruct (s_theta_phi s); [cbn [list_prod]; apply app_nil_r|]. induction (phi_axis s) as [|p l IH]; [reflexivity|]. cbn [list_prod map app]. f_equal. exact IH. }
  repeat match goal with |- _ /\ _ => split end; try (unfold vdot; cbn [v0 v1 v2]; ring).
  - unfold sphere_points. rewrite An, !map_length, length_phi. exact Eh.
  - intros i Hi. cbv zeta. unfold sphere_points. rewrite An, map_map. unfold phi_axis. rewrite Eh, Elp. cbn [fst snd]. rewrite (nth_map_some _ _ _ _ (nth_linspace _ _ n (phi_endpoint s) i Hi)). f_equal. unfold sphere_to_3d. cbn [fst snd]. rewrite Ep. f_equal. set (phi := _ + _ * _). clearbody phi.
    unfold on_sphere. rewrite sin_PI2, cos_PI2. unfold mapply, vadd, vscale. cbn [v0 v1 v2]. f_equal; ring.
Qed.
Print Assumptions C35_circle.
(** * C53 *)
Lemma cos_one d : - (2 * PI) < d < 2 * PI -> cos d = 1 -> d = 0.
Proof.
  intros H C. assert (S : sin (d / 2) = 0).
  { assert (E : cos d = 1 - 2 * (sin (d / 2) * sin (d / 2))) by (replace d with (2 * (d / 2)) at 1 by field; rewrite cos_2a_sin; ring). apply Rsqr_0_uniq. unfold Rsqr. lra. }
  pose proof PI_RGT_0. destruct (Rtotal_order d 0) as [L|[E|L]]; [|exact E|].
  - exfalso. assert (0 < sin (- (d / 2))) by (apply sin_gt_0; lra). rewrite sin_neg in *. lra.
  - exfalso. assert (0 < sin (d / 2)) by (apply sin_gt_0; lra). lra.
Qed.
Lemma on_sphere_inj r t p t' p' : r <> 0 -> 0 < t < PI -> 0 < t' < PI -> - (2 * PI) < p - p' < 2 * PI -> on_sphere r t p = on_sphere r t' p' -> t = t' /\ p = p'.
Proof.
  intros R T T' P E. unfold on_sphere in E. injection E as E0 E1 E2. assert (C : cos t = cos t') by (apply Rmult_eq_reg_l with r; [lra|exact R]). assert (t = t') by (apply cos_inj; lra). subst t'. split; [reflexivity|].
  assert (S : 0 < sin t) by (apply sin_gt_0; lra). assert (RS : r * sin t <> 0) by (apply Rmult_integral_contrapositive_currified; lra). apply Rmult_eq_reg_l in E0; [|exact RS]. apply Rmult_eq_reg_l in E1; [|exact RS].
  assert (p - p' = 0); [|lra]. apply cos_one; [exact P|]. rewrite cos_minus, E0, E1. pose proof (sc1 p'). lra.
Qed.
Lemma theta_strict s : s_tend s = AutoEnds -> s_cap s = false -> 0 <= fst (s_theta s) -> fst (s_theta s) < snd (s_theta s) -> snd (s_theta s) <= PI ->
  NoDup (theta_axis s) /\ forall t, In t (theta_axis s) -> 0 < t < PI.
Proof.
  intros A Cp L0 L1 L2. rewrite theta_axis_eq. unfold theta_endpoints. rewrite A, Cp. set (t0 := fst (s_theta s)) in *. set (t1 := snd (s_theta s)) in *. set (n := s_ntheta s).
  assert (Z : forall t, at_pole t = false -> t <> 0 /\ t <> PI).
  { intros t H. unfold at_pole in H. apply orb_false_iff in H. destruct H as (H0 & H1). assert (I : forall x, isclose x x = true) by (intros x; unfold isclose; destruct (Rle_dec _ _) as [|N]; [reflexivity|]; exfalso; apply N; rewrite Rminus_eq_0, Rabs_R0; pose proof (Rabs_pos x); cbn [pow]; lra). split; intros ->; rewrite I in *; discriminate. }
  set (e := (negb (at_pole t0), negb (at_pole t1))). assert (W : forall i, (i < n)%nat -> 0 < intervals n e) .
  { intros i Hi. pose proof (pos_INR i). assert (INR i + 1 <= INR n) by (rewrite <- S_INR; apply le_INR; lia). unfold intervals. destruct (fst e && snd e); [|lra]. destruct (Nat.eqb_spec n 1); [lra|]. assert (2 <= INR n) by (change 2 with (INR 2); apply le_INR; lia). lra. }
  split.
  - apply nodup_map_in; [|apply seq_NoDup]. intros i j Hi Hj E. apply in_seq in Hi. specialize (W i ltac:(lia)). apply INR_eq. assert (D : (t1 - t0) / intervals n e <> 0) by (apply Rmult_integral_contrapositive_currified; [lra|apply Rinv_neq_0_compat; lra]). assert (INR i + offset e = INR j + offset e); [|lra]. apply Rmult_eq_reg_r with ((t1 - t0) / intervals n e); [lra|exact D].
  - intros t I. apply in_map_iff in I. destruct I as (i & <- & Hi). apply in_seq in Hi. specialize (W i ltac:(lia)). assert (Pi : 0 <= INR i) by apply pos_INR. assert (Pn : INR i + 1 <= INR n) by (rewrite <- S_INR; apply le_INR; lia).
    set (k := INR i + offset e). assert (K : 0 <= k <= intervals n e /\ (at_pole t0 = true -> 0 < k) /\ (at_pole t1 = true -> k < intervals n e)).
    { unfold k, e, offset, intervals. cbn [fst snd]. destruct (at_pole t0), (at_pole t1); cbn [negb andb]; (split; [|split]); try congruence; try (intros _); try lra; destruct (Nat.eqb_spec n 1) as [E|]; try lra; assert (i = 0)%nat by lia; subst i; cbn [INR]; lra. }
    destruct K as (K & K0 & K1). replace (k * ((t1 - t0) / intervals n e)) with (k / intervals n e * (t1 - t0)) by (field; lra). set (N := intervals n e) in *. clearbody k N e.
    assert (Q0 : 0 <= k / N) by (apply Rmult_le_pos; [lra|left; apply Rinv_0_lt_compat, W]). assert (Q1 : k / N <= 1) by (apply Rmult_le_reg_r with N; [exact W|]; unfold Rdiv; rewrite Rmult_assoc, Rinv_l by lra; lra).
    assert (B0 : at_pole t0 = true -> 0 < k / N) by (intros X; apply Rmult_lt_0_compat; [apply K0, X|apply Rinv_0_lt_compat, W]).
    assert (B1 : at_pole t1 = true -> k / N < 1) by (intros X; specialize (K1 X); apply Rmult_lt_reg_r with N; [exact W|]; unfold Rdiv; rewrite Rmult_assoc, Rinv_l by lra; lra). set (c := k / N) in *. clearbody c.
    assert (C0 : 0 <= c * (t1 - t0)) by (apply Rmult_le_pos; lra). assert (C1 : 0 <= (1 - c) * (t1 - t0)) by (apply Rmult_le_pos; lra). split.
    + destruct (at_pole t0) eqn:E; [specialize (B0 eq_refl); assert (0 < c * (t1 - t0)) by (apply Rmult_lt_0_compat; lra); lra|]. destruct (Z t0 E). lra.
    + destruct (at_pole t1) eqn:E; [specialize (B1 eq_refl); assert (0 < (1 - c) * (t1 - t0)) by (apply Rmult_lt_0_compat; lra); lra|]. destruct (Z t1 E). lra.
Qed.
(** All seeds of a sphere are different: any limits of theta from 0 to 180 degrees and of phi up to
    a full turn, with endpoints left to the program. *)
Theorem C53_distinct : forall p0 r pole iv nt np tl pl tp roll gse s,
  make_sphere p0 r pole iv nt np tl pl AutoEnds AutoEnd tp roll gse false = Some s ->
  0 <= fst tl < snd tl -> snd tl <= 180 -> fst pl < snd pl <= fst pl + 360 -> NoDup (sphere_points s).
Proof.
  intros p0 r pole iv nt np tl pl tp roll gse s H T T' P. pose proof (made _ _ _ _ _ _ _ _ _ _ _ _ _ _ _ H) as M. clear H. cbv zeta in M. destruct M as (Nd & Ep & Er & _ & Et & Eh & Elt & Elp & Ete & Epe & Etp & Ecap & U). destruct (pole_ok s U) as (Ro & _). pose proof PI_RGT_0 as PI0.
  assert (D : forall a b, a <= b -> deg2rad a <= deg2rad b) by (intros a b L; unfold deg2rad; apply Rmult_le_compat_r; lra). assert (Ds : forall a b, a < b -> deg2rad a < deg2rad b) by (intros a b L; unfold deg2rad; apply Rmult_lt_compat_r; lra).
  assert (D0 : deg2rad 0 = 0) by (unfold deg2rad; ring). assert (D180 : deg2rad 180 = PI) by (unfold deg2rad; field).
  assert (R0 : s_r s <> 0) by (rewrite Er; destruct (Req_EM_T r 0); assumption).
  destruct (theta_strict s) as (NT & IT); rewrite ?Elt; cbn [fst snd]; auto; [rewrite <- D0; apply D; lra|apply Ds; lra|rewrite <- D180; apply D; lra|].
  assert (Lp : deg2rad (snd pl) - deg2rad (fst pl) <= 2 * PI) by (replace (2 * PI) with (deg2rad 360) by (unfold deg2rad; field); replace (deg2rad (snd pl) - deg2rad (fst pl)) with (deg2rad (snd pl - fst pl)) by (unfold deg2rad; ring); apply D; lra).
  assert (Lp0 : deg2rad (fst pl) < deg2rad (snd pl)) by (apply Ds; lra).
  assert (NP : NoDup (phi_axis s)) by (unfold phi_axis; apply linspace_nodup; rewrite Elp; cbn [fst snd]; lra).
  assert (IP : forall p p', In p (phi_axis s) -> In p' (phi_axis s) -> p - p' < 2 * PI).
  { intros p p' I I'. unfold phi_axis in I, I'. rewrite Elp in I, I'. cbn [fst snd] in I, I'. assert (B' := linspace_in _ _ _ _ _ (Rlt_le _ _ Lp0) I'). assert (B := linspace_in _ _ _ _ _ (Rlt_le _ _ Lp0) I).
    destruct (phi_endpoint s) eqn:Epp.
    - unfold phi_endpoint in Epp. rewrite Epe in Epp. unfold spans_phi in Epp. rewrite Elp in Epp. cbn [fst snd] in Epp. destruct (Req_dec (deg2rad (snd pl) - deg2rad (fst pl)) (2 * PI)) as [Q|Q]; [|lra]. rewrite Q in Epp. unfold isclose in Epp. destruct (Rle_dec _ _) as [|N]; [discriminate|]. exfalso. apply N. rewrite Rminus_eq_0, Rabs_R0. pose proof (Rabs_pos (2 * PI)). cbn [pow]. lra.
    - apply in_linspace in I. destruct I as (i & Hi & Ei). cbn [stepping] in Ei. set (a := deg2rad (fst pl)) in *. set (b := deg2rad (snd pl)) in *. assert (Pn : INR i + 1 <= INR (s_nphi s)) by (rewrite <- S_INR; apply le_INR; lia). pose proof (pos_INR i).
      assert (INR i * ((b - a) / INR (s_nphi s)) < b - a).
      { replace (INR i * ((b - a) / INR (s_nphi s))) with ((INR i / INR (s_nphi s)) * (b - a)) by (field; lra). assert (INR i / INR (s_nphi s) < 1) by (apply Rmult_lt_reg_r with (INR (s_nphi s)); [lra|]; unfold Rdiv; rewrite Rmult_assoc, Rinv_l by lra; lra). assert (0 < (1 - INR i / INR (s_nphi s)) * (b - a)) by (apply Rmult_lt_0_compat; lra). lra. }
      lra. }
  unfold sphere_points. apply nodup_map_in.
  - intros (t, p) (t', p') I I' E. apply in_angles in I. apply in_angles in I'. unfold sphere_to_3d in E. cbn [fst snd] in E.
    assert (E' : on_sphere (s_r s) t p = on_sphere (s_r s) t' p').
    { assert (X : mapply (sphere_rotation s) (on_sphere (s_r s) t p) = mapply (sphere_rotation s) (on_sphere (s_r s) t' p')) by (rewrite <- (vadd_sub (s_p0 s) (mapply _ (on_sphere (s_r s) t p))), <- (vadd_sub (s_p0 s) (mapply _ (on_sphere (s_r s) t' p'))), E; reflexivity).
      rewrite <- (mapply_eye (on_sphere (s_r s) t p)), <- (mapply_eye (on_sphere (s_r s) t' p')), <- (rotation_left _ Ro), !mapply_mmul, X. reflexivity. }
    pose proof (IP p p' (proj2 I) (proj2 I')). pose proof (IP p' p (proj2 I') (proj2 I)). destruct (on_sphere_inj (s_r s) t p t' p' R0 (IT t (proj1 I)) (IT t' (proj1 I')) ltac:(lra) E') as (-> & ->). reflexivity.
  - rewrite angles_eq. destruct (s_theta_phi s); [apply list_prod_nodup; assumption|]. apply nodup_map_in; [|apply list_prod_nodup; assumption]. intros (a, b) (c, d) _ _ E. cbn [fst snd] in E. congruence.
Qed.
Print Assumptions C53_distinct.
(** A spherical cap repeats its pole: all its nphi first seeds are the same point. *)
Theorem C53_cap_refuted : forall p0 r pole iv nt np angle pl pe roll gse s, (1 <= nt)%nat -> (2 <= np)%nat ->
  make_cap p0 r pole iv nt np 0 angle pl pe true roll gse = Some s ->
  nth_error (sphere_points s) 0 = nth_error (sphere_points s) 1 /\ ~ NoDup (sphere_points s).
Proof.
  intros p0 r pole iv nt np angle pl pe roll gse s Hn Hp H. pose proof (made _ _ _ _ _ _ _ _ _ _ _ _ _ _ _ H) as M. clear H. cbv zeta in M. destruct M as (_ & Ep & _ & _ & Et & Eh & Elt & Elp & Ete & _ & Etp & Ecap & _).
  assert (Th : exists l, theta_axis s = 0 :: l).
  { rewrite theta_axis_eq, Et, Elt. destruct nt as [|nt]; [lia|]. cbn [seq map fst snd INR]. unfold theta_endpoints. rewrite Ete, Ecap. cbn [offset]. eexists. f_equal. unfold deg2rad. ring. }
  assert (Ph : exists a b m, phi_axis s = a :: b :: m) by (unfold phi_axis, linspace; rewrite Eh; destruct np as [|[|np]]; [lia|lia|]; cbn [seq map]; eauto).
  destruct Th as (l & Th). destruct Ph as (a & b & m & Ph). assert (E : exists rest, sphere_points s = sphere_to_3d s (0, a) :: sphere_to_3d s (0, b) :: rest) by (unfold sphere_points; rewrite angles_eq, Etp, Th, Ph; cbn [list_prod map app]; eauto).
  destruct E as (rest & E). assert (Q : sphere_to_3d s (0, a) = sphere_to_3d s (0, b)) by (unfold sphere_to_3d, on_sphere; cbn [fst snd]; rewrite sin_0; do 2 f_equal; f_equal; ring).
  rewrite E, Q. split; [reflexivity|]. intros N. inversion N as [|x l' Hx _]. subst. apply Hx. left. reflexivity.
Qed.
Print Assumptions C53_cap_refuted.
(** * SphericalPatch *)
Lemma sin_sq_le a A : 0 <= A <= PI / 2 -> - A <= a <= A -> sin a * sin a <= sin A * sin A.
Proof.
  intros H L. assert (S0 : 0 <= sin A) by (apply sin_ge_0; pose proof PI_RGT_0; lra). assert (U : sin a <= sin A) by (apply sin_incr_1; lra). assert (D : - sin A <= sin a) by (rewrite <- sin_neg; apply sin_incr_1; lra). nra.
Qed.
(** Up to 90 degrees all points are numbers, at the radius from the centre. *)
Theorem C35_patch_partial : forall p0 p1 A B na nb roll r (iv : bool) p,
  0 <= A <= 90 -> 0 <= B <= 90 -> let d := if iv then p1 else vsub p1 p0 in norm d <> 0 -> 0 <= r ->
  make_patch p0 p1 A B na nb roll r iv = IsPatch p ->
  length (patch_points p) = (na * nb)%nat /\
  forall q, In q (patch_points p) -> exists v, q = Some v /\ norm (vsub v p0) = (if Req_EM_T r 0 then norm d else r).
Proof.
  intros p0 p1 A B na nb roll r iv p HA HB d Nd R0 H. unfold make_patch in H. fold d in H. clearbody d.
  set (rr := if Req_EM_T r 0 then norm d else r). set (q1 := if Req_EM_T r 0 then d else vscale (r / norm d) d). assert (E : (if Req_EM_T r 0 then (d, norm d) else (vscale (r / norm d) d, r)) = (q1, rr)) by (unfold q1, rr; destruct (Req_EM_T r 0); reflexivity). rewrite E in H.
  destruct (Rlt_dec _ _) as [|L]; [discriminate|]. injection H as <-. pose proof PI_RGT_0 as PI0. set (a := PI / 180 * A) in *. set (b := PI / 180 * B) in *.
  assert (Ha : 0 <= a <= PI / 2) by (unfold a; split; [apply Rmult_le_pos; lra|]; replace (PI / 2) with (PI / 180 * 90) by field; apply Rmult_le_compat_l; lra). assert (Hb : 0 <= b <= PI / 2) by (unfold b; split; [apply Rmult_le_pos; lra|]; replace (PI / 2) with (PI / 180 * 90) by field; apply Rmult_le_compat_l; lra).
  assert (Rp : 0 <= rr) by (unfold rr; destruct (Req_EM_T r 0); [apply norm_pos|exact R0]).
  assert (Nq : norm q1 <> 0).
  { unfold q1. destruct (Req_EM_T r 0) as [|Nr]; [exact Nd|]. intros Z. apply norm_zero in Z. apply Nd, norm_zero. assert (K : r / norm d <> 0) by (apply Rmult_integral_contrapositive_currified; [exact Nr|apply Rinv_neq_0_compat, Nd]). destruct d as [x y z]. unfold vscale in Z. cbn [v0 v1 v2] in Z. injection Z as Z0 Z1 Z2. f_equal; apply Rmult_eq_reg_l with (r / norm (VEC x y z)); try exact K; lra. }
  unfold patch_points. cbn [pt_a pt_b pt_na pt_nb]. set (la := linspace (-1 * a) (1 * a) na true). set (lb := linspace (-1 * b) (1 * b) nb true).
  assert (G : combine (PointsModel.np_repeat la nb) (PointsModel.tile lb na) = list_prod la lb) by (rewrite <- grid_prod; unfold la, lb; rewrite !length_linspace; reflexivity). rewrite G. split; [rewrite map_length, prod_length; unfold la, lb; rewrite !length_linspace; reflexivity|].
  intros q I. apply in_map_iff in I. destruct I as ((x, y) & <- & I). apply in_prod_iff in I. destruct I as (Ix & Iy). apply linspace_in in Ix; [|lra]. apply linspace_in in Iy; [|lra]. pose proof (sin_sq_le x a Ha ltac:(lra)) as Sx. pose proof (sin_sq_le y b Hb ltac:(lra)) as Sy.
  unfold patch_to_3d. cbn [pt_r pt_p0 pt_p1 pt_roll fst snd]. assert (Dp : 0 <= rr * rr - rr * sin x * (rr * sin x) - rr * sin y * (rr * sin y)).
  { replace (rr * rr - rr * sin x * (rr * sin x) - rr * sin y * (rr * sin y)) with (rr * rr * (1 - (sin x * sin x + sin y * sin y))) by ring. apply Rmult_le_pos; [apply Rmult_le_pos; exact Rp|]. lra. }
  destruct (Rlt_dec _ 0) as [|_]; [lra|]. eexists. split; [reflexivity|]. rewrite vadd_sub. set (w := VEC _ _ _). 
  assert (Nz : norm (VEC 0 0 1) <> 0) by (intros Z; apply norm_zero in Z; injection Z as Z; lra). destruct (C51_a2b (VEC 0 0 1) q1 roll Deg Nz Nq) as (Ro & _). rewrite norm_iso by exact Ro. fold rr.
  transitivity (sqrt (rr * rr)); [|apply sqrt_square, Rp]. unfold norm, w. cbn [v0 v1 v2]. f_equal. rewrite sqrt_sqrt by exact Dp. ring.
Qed.
Print Assumptions C35_patch_partial.
(** Beyond 90 degrees the check of the arguments lets patches through that have nan among their
    points. *)
Theorem C35_patch_refuted : forall p0 p1 nb roll, (1 <= nb)%nat -> norm p1 <> 0 ->
  exists p, make_patch p0 p1 180 90 5 nb roll 0 true = IsPatch p /\ In None (patch_points p).
Proof.
  intros p0 p1 nb roll Hn N. unfold make_patch. destruct (Req_EM_T 0 0) as [_|]; [|congruence].
  assert (A : PI / 180 * 180 = PI) by field. assert (B : PI / 180 * 90 = PI / 2) by field. rewrite A, B, sin_PI, sin_PI2. destruct (Rlt_dec _ _) as [L|_]; [lra|]. eexists. split; [reflexivity|]. unfold patch_points. cbn [pt_a pt_b pt_na pt_nb].
  set (la := linspace (-1 * PI) (1 * PI) 5 true). set (lb := linspace (-1 * (PI / 2)) (1 * (PI / 2)) nb true).
  assert (G : combine (PointsModel.np_repeat la nb) (PointsModel.tile lb 5) = list_prod la lb) by (rewrite <- grid_prod; unfold la, lb; rewrite !length_linspace; reflexivity). rewrite G. apply in_map_iff. exists (- (PI / 2), - (PI / 2)). split.
  - unfold patch_to_3d. cbn [pt_r fst snd]. rewrite sin_neg, sin_PI2. destruct (Rlt_dec _ 0) as [|L]; [reflexivity|]. exfalso. apply L. assert (0 < norm p1 * norm p1) by (pose proof (norm_pos p1); apply Rmult_lt_0_compat; lra). lra.
  - apply in_prod_iff. split; apply in_linspace.
    + exists 1%nat. split; [lia|]. unfold stepping. cbn [Nat.eqb INR]. field.
    + exists 0%nat. split; [lia|]. cbn [INR]. ring.
Qed.
Print Assumptions C35_patch_refuted.
(* a pole that is not zero gives a sphere, whatever the rest *)
Example C35_sphere_ex : forall p0 pole r nt np tl pl te pe tp roll gse cap, pole <> p0 ->
  exists s, make_sphere p0 r pole false nt np tl pl te pe tp roll gse cap = Some s.
Proof.
  intros p0 pole r nt np tl pl te pe tp roll gse cap H. unfold make_sphere, normalize. destruct (Req_EM_T (norm (vsub pole p0)) 0) as [Z|]; [|eexists; reflexivity]. exfalso. apply H.
  apply norm_zero in Z. destruct pole as [a b c], p0 as [x y z]. unfold vsub in Z. cbn [v0 v1 v2] in Z. injection Z as Za Zb Zc. f_equal; lra.
Qed.
