(** C59: minimum variance analysis and boundary normal coordinates. *)
From Verif Require Import MinvarModel RotProofs.
From Coq Require Import Lra Lia ZifyBool Psatz.
Open Scope R_scope.

(** * specification *)
Fixpoint total (l : list R) : R := match l with [] => 0 | x :: l => x + total l end.
Definition average (l : list R) : R := total l / INR (length l).
(* mean square deviation from the mean *)
Definition variance (l : list R) : R := average (map (fun x => (x - average l) * (x - average l)) l).
(* the samples without nan or inf *)
Fixpoint finite_rows (arr : list row) : list vec :=
  match arr with
  | [] => []
  | (Some a, Some b, Some c) :: arr => VEC a b c :: finite_rows arr
  | _ :: arr => finite_rows arr
  end.
(* the component of the samples in the direction u *)
Definition along (u : vec) (arr : list row) : list R := map (fun b => vdot u b) (finite_rows arr).
(* what np.linalg.eig promises for a symmetric matrix: three eigenvalues with unit eigenvectors that are linearly independent *)
Definition eigen (m : mat) (p : R * vec) : Prop := mapply m (snd p) = vscale (fst p) (snd p) /\ vdot (snd p) (snd p) = 1.
Definition volume (a b c : vec) : R := vdot (cross a b) c.
Definition eigenbasis (m : mat) (l : list (R * vec)) : Prop :=
  exists a b c, l = [a; b; c] /\ eigen m a /\ eigen m b /\ eigen m c /\ volume (snd a) (snd b) (snd c) <> 0.
(* right handed, orthonormal *)
Definition frame (f : lmn) : Prop :=
  vdot (dir_l f) (dir_l f) = 1 /\ vdot (dir_m f) (dir_m f) = 1 /\ vdot (dir_n f) (dir_n f) = 1 /\
  vdot (dir_l f) (dir_m f) = 0 /\ vdot (dir_l f) (dir_n f) = 0 /\ vdot (dir_m f) (dir_n f) = 0 /\ cross (dir_l f) (dir_m f) = dir_n f.

(** * samples *)
Lemma masked_rows arr : masked arr = finite_rows arr.
Proof. induction arr as [|[[[a|] [b|]] [c|]] arr IH]; cbn; rewrite <- ?IH; reflexivity. Qed.
Lemma mean_average l : mean l = average l.
Proof. reflexivity. Qed.
Lemma total_lin {A} (f g : A -> R) a b s : total (map (fun v => a * f v + b * g v) s) = a * total (map f s) + b * total (map g s).
Proof. induction s as [|v s IH]; cbn [map total]; [ring|]. rewrite IH. ring. Qed.
Lemma average_lin {A} (f g : A -> R) a b s : average (map (fun v => a * f v + b * g v) s) = a * average (map f s) + b * average (map g s).
Proof. unfold average. rewrite total_lin, !map_length. unfold Rdiv. ring. Qed.
Lemma average_const {A} (c : R) (s : list A) : s <> [] -> average (map (fun _ => c) s) = c.
Proof.
  intros N. unfold average. rewrite map_length. assert (T : total (map (fun _ => c) s) = INR (length s) * c).
  { clear N. induction s as [|v s IH]; [cbn; ring|]. cbn [map total length]. rewrite IH, S_INR. ring. }
  rewrite T. field. apply not_0_INR. destruct s; [contradiction|discriminate].
Qed.
Lemma average_ext {A} (f g : A -> R) s : (forall v, f v = g v) -> average (map f s) = average (map g s).
Proof. intros E. rewrite (map_ext f g E). reflexivity. Qed.
Lemma total_nonneg l : (forall x, In x l -> 0 <= x) -> 0 <= total l.
Proof. induction l as [|x l IH]; intros H; cbn [total]; [lra|]. assert (0 <= x) by (apply H; left; reflexivity). assert (0 <= total l) by (apply IH; intros y I; apply H; right; exact I). lra. Qed.
Lemma variance_nonneg l : 0 <= variance l.
Proof.
  unfold variance, average at 1. apply Rmult_le_pos; [apply total_nonneg|].
  - intros x I. apply in_map_iff in I. destruct I as (y & <- & _). apply Rle_0_sqr.
  - rewrite map_length. destruct l as [|x l]; [cbn; rewrite Rinv_0; lra|]. left. apply Rinv_0_lt_compat, lt_0_INR. cbn. lia.
Qed.
Lemma variance_two {A} (f : A -> R) s : s <> [] -> variance (map f s) = average (map (fun v => f v * f v) s) - average (map f s) * average (map f s).
Proof.
  intros N. unfold variance. set (m := average (map f s)). rewrite map_map.
  rewrite (average_ext _ (fun v => 1 * (f v * f v) + 1 * (-2 * m * f v + m * m * 1))) by (intros v; ring).
  rewrite average_lin, average_lin, average_const by exact N. fold m. ring.
Qed.
Lemma quad_variance u s : s <> [] -> vdot u (mapply (cov s) u) = variance (map (fun b => vdot u b) s).
Proof.
  intros N. rewrite variance_two by exact N.
  set (A0 := average (map v0 s)). set (A1 := average (map v1 s)). set (A2 := average (map v2 s)).
  set (P00 := average (map (fun v => v0 v * v0 v) s)). set (P10 := average (map (fun v => v1 v * v0 v) s)). set (P20 := average (map (fun v => v2 v * v0 v) s)).
  set (P11 := average (map (fun v => v1 v * v1 v) s)). set (P21 := average (map (fun v => v2 v * v1 v) s)). set (P22 := average (map (fun v => v2 v * v2 v) s)).
  assert (C : cov s = MAT (P00 - A0 * A0) (P10 - A1 * A0) (P20 - A2 * A0) (P10 - A1 * A0) (P11 - A1 * A1) (P21 - A2 * A1) (P20 - A2 * A0) (P21 - A2 * A1) (P22 - A2 * A2)) by reflexivity.
  assert (E1 : average (map (fun v => vdot u v) s) = v0 u * A0 + 1 * (v1 u * A1 + v2 u * A2)).
  { rewrite (average_ext _ (fun v => v0 u * v0 v + 1 * (v1 u * v1 v + v2 u * v2 v))) by (intros v; unfold vdot; ring). rewrite !average_lin. reflexivity. }
  assert (E2 : average (map (fun v => vdot u v * vdot u v) s) = v0 u * v0 u * P00 + 1 * (2 * v0 u * v1 u * P10 + 1 * (2 * v0 u * v2 u * P20 + 1 * (v1 u * v1 u * P11 + 1 * (2 * v1 u * v2 u * P21 + v2 u * v2 u * P22))))).
  { rewrite (average_ext _ (fun v => (v0 u * v0 u) * (v0 v * v0 v) + 1 * ((2 * v0 u * v1 u) * (v1 v * v0 v) + 1 * ((2 * v0 u * v2 u) * (v2 v * v0 v) + 1 * ((v1 u * v1 u) * (v1 v * v1 v) + 1 * ((2 * v1 u * v2 u) * (v2 v * v1 v) + (v2 u * v2 u) * (v2 v * v2 v))))))) by (intros v; unfold vdot; ring).
    rewrite !average_lin. reflexivity. }
  rewrite C, E1, E2. clearbody A0 A1 A2 P00 P10 P20 P11 P21 P22. mcbn. ring.
Qed.
Lemma cov_sym s : transpose (cov s) = cov s.
Proof. reflexivity. Qed.

(** * eigenvalues *)
Lemma sort3 m l : eigenbasis m l -> exists a b c, sort (fun p => Rabs (fst p)) l = [a; b; c] /\ Rabs (fst a) <= Rabs (fst b) <= Rabs (fst c) /\
  eigen m a /\ eigen m b /\ eigen m c /\ volume (snd a) (snd b) (snd c) <> 0.
Proof.
  intros (a & b & c & -> & A & B & C & V). unfold sort. cbn [fold_right insert].
  assert (V1 : volume (snd a) (snd c) (snd b) <> 0) by (intros E; apply V; revert E; unfold volume; mcbn; intros E; lra).
  assert (V2 : volume (snd b) (snd a) (snd c) <> 0) by (intros E; apply V; revert E; unfold volume; mcbn; intros E; lra).
  assert (V3 : volume (snd b) (snd c) (snd a) <> 0) by (intros E; apply V; revert E; unfold volume; mcbn; intros E; lra).
  assert (V4 : volume (snd c) (snd a) (snd b) <> 0) by (intros E; apply V; revert E; unfold volume; mcbn; intros E; lra).
  assert (V5 : volume (snd c) (snd b) (snd a) <> 0) by (intros E; apply V; revert E; unfold volume; mcbn; intros E; lra).
  destruct (Rle_dec (Rabs (fst b)) (Rabs (fst c))) as [P|P]; cbn [insert].
  - destruct (Rle_dec (Rabs (fst a)) (Rabs (fst b))) as [Q|Q]; [exists a, b, c|destruct (Rle_dec (Rabs (fst a)) (Rabs (fst c))) as [S|S]; [exists b, a, c|exists b, c, a]]; (split; [reflexivity|]); (split; [lra|]); auto.
  - destruct (Rle_dec (Rabs (fst a)) (Rabs (fst c))) as [Q|Q]; [exists a, c, b|destruct (Rle_dec (Rabs (fst a)) (Rabs (fst b))) as [S|S]; [exists c, a, b|exists c, b, a]]; (split; [reflexivity|]); (split; [lra|]); auto.
Qed.
Lemma sym_dot m x y : transpose m = m -> vdot x (mapply m y) = vdot y (mapply m x).
Proof.
  intros T. assert (A : m01 m = m10 m) by (rewrite <- T at 1; reflexivity). assert (B : m02 m = m20 m) by (rewrite <- T at 1; reflexivity). assert (C : m12 m = m21 m) by (rewrite <- T at 1; reflexivity). clear T. destruct m as [a b c d e f g h i]. cbn [m01 m02 m10 m12 m20 m21] in A, B, C. subst. mcbn. ring.
Qed.
Lemma eigen_orth m p q : transpose m = m -> eigen m p -> eigen m q -> (fst p - fst q) * vdot (snd p) (snd q) = 0.
Proof.
  intros T (P & _) (Q & _). assert (E := sym_dot m (snd p) (snd q) T). rewrite P, Q in E. revert E. mcbn. intros E. lra.
Qed.
Lemma eigen_value m p : eigen m p -> vdot (snd p) (mapply m (snd p)) = fst p.
Proof. intros (P & N). rewrite P. transitivity (fst p * vdot (snd p) (snd p)); [mcbn; ring|rewrite N; ring]. Qed.
Lemma combine_basis a b c u : volume a b c <> 0 -> exists x y z, u = vadd (vscale x a) (vadd (vscale y b) (vscale z c)).
Proof.
  intros V. exists (volume u b c / volume a b c), (volume a u c / volume a b c), (volume a b u / volume a b c).
  destruct u as [u0 u1 u2]. unfold volume in *. revert V. mcbn. intros V. f_equal; field; exact V.
Qed.
(* the form of the matrix stays between the smallest and the largest eigenvalue *)
Lemma two_terms k1 k2 g11 g12 g22 y z : 0 <= k1 -> 0 <= k2 -> (k1 - k2) * g12 = 0 -> 0 <= y * y * g11 -> 0 <= z * z * g22 -> 0 <= y * y * g11 + 2 * y * z * g12 + z * z * g22 -> 0 <= k1 * (y * y * g11) + (k1 + k2) * (y * z * g12) + k2 * (z * z * g22).
Proof.
  intros A B C D E F. destruct (Req_dec g12 0) as [Z|Z].
  - subst g12. assert (0 <= k1 * (y * y * g11)) by (apply Rmult_le_pos; assumption). assert (0 <= k2 * (z * z * g22)) by (apply Rmult_le_pos; assumption). lra.
  - assert (K : k1 = k2) by (apply Rmult_integral in C; destruct C; [lra|contradiction]). subst k2. replace (k1 * (y * y * g11) + (k1 + k1) * (y * z * g12) + k1 * (z * z * g22)) with (k1 * (y * y * g11 + 2 * y * z * g12 + z * z * g22)) by ring. apply Rmult_le_pos; assumption.
Qed.
Lemma sq_nonneg v : 0 <= vdot v v.
Proof. unfold vdot. nra. Qed.
Lemma form_bounds m a b c u : transpose m = m -> eigen m a -> eigen m b -> eigen m c -> volume (snd a) (snd b) (snd c) <> 0 -> fst a <= fst b <= fst c ->
  fst a * vdot u u <= vdot u (mapply m u) <= fst c * vdot u u.
Proof.
  intros T A B C V L. destruct (combine_basis _ _ _ u V) as (x & y & z & ->). assert (Oab := eigen_orth m a b T A B). assert (Oac := eigen_orth m a c T A C). assert (Obc := eigen_orth m b c T B C).
  destruct A as (A & _), B as (B & _), C as (C & _). destruct a as (la, a), b as (lb, b), c as (lc, c). cbn [fst snd] in *.
  set (gaa := vdot a a). set (gbb := vdot b b). set (gcc := vdot c c). set (gab := vdot a b) in *. set (gac := vdot a c) in *. set (gbc := vdot b c) in *.
  assert (M : mapply m (vadd (vscale x a) (vadd (vscale y b) (vscale z c))) = vadd (vscale (x * la) a) (vadd (vscale (y * lb) b) (vscale (z * lc) c))).
  { transitivity (vadd (vscale x (mapply m a)) (vadd (vscale y (mapply m b)) (vscale z (mapply m c)))); [mat_ring|]. rewrite A, B, C. mat_ring. }
  rewrite M. set (u := vadd (vscale x a) (vadd (vscale y b) (vscale z c))).
  assert (F1 : vdot u u = x * x * gaa + y * y * gbb + z * z * gcc + 2 * x * y * gab + 2 * x * z * gac + 2 * y * z * gbc) by (unfold u, gaa, gbb, gcc, gab, gac, gbc; mcbn; ring).
  assert (F2 : vdot u (vadd (vscale (x * la) a) (vadd (vscale (y * lb) b) (vscale (z * lc) c))) = la * (x * x * gaa) + lb * (y * y * gbb) + lc * (z * z * gcc) + (la + lb) * (x * y * gab) + (la + lc) * (x * z * gac) + (lb + lc) * (y * z * gbc)) by (unfold u, gaa, gbb, gcc, gab, gac, gbc; mcbn; ring).
  assert (Sa : 0 <= x * x * gaa) by (apply Rmult_le_pos; [apply Rle_0_sqr|apply sq_nonneg]). assert (Sb : 0 <= y * y * gbb) by (apply Rmult_le_pos; [apply Rle_0_sqr|apply sq_nonneg]). assert (Sc : 0 <= z * z * gcc) by (apply Rmult_le_pos; [apply Rle_0_sqr|apply sq_nonneg]).
  assert (Pab : 0 <= x * x * gaa + 2 * x * y * gab + y * y * gbb) by (replace (x * x * gaa + 2 * x * y * gab + y * y * gbb) with (vdot (vadd (vscale x a) (vscale y b)) (vadd (vscale x a) (vscale y b))) by (unfold gaa, gab, gbb; mcbn; ring); apply sq_nonneg).
  assert (Pbc : 0 <= y * y * gbb + 2 * y * z * gbc + z * z * gcc) by (replace (y * y * gbb + 2 * y * z * gbc + z * z * gcc) with (vdot (vadd (vscale y b) (vscale z c)) (vadd (vscale y b) (vscale z c))) by (unfold gbb, gbc, gcc; mcbn; ring); apply sq_nonneg).
  rewrite F1, F2. clearbody gaa gbb gcc gab gac gbc. clear F1 F2 u M. split.
  - assert (Q := two_terms (lb - la) (lc - la) gbb gbc gcc y z ltac:(lra) ltac:(lra) ltac:(lra) Sb Sc Pbc).
    assert (E1 : (la + lb) * (x * y * gab) = 2 * la * (x * y * gab)) by (replace ((la + lb) * (x * y * gab)) with (2 * la * (x * y * gab) - x * y * ((la - lb) * gab)) by ring; rewrite Oab; ring).
    assert (E2 : (la + lc) * (x * z * gac) = 2 * la * (x * z * gac)) by (replace ((la + lc) * (x * z * gac)) with (2 * la * (x * z * gac) - x * z * ((la - lc) * gac)) by ring; rewrite Oac; ring).
    rewrite E1, E2. nra.
  - assert (Q := two_terms (lc - la) (lc - lb) gaa gab gbb x y ltac:(lra) ltac:(lra) ltac:(lra) Sa Sb Pab).
    assert (E1 : (lb + lc) * (y * z * gbc) = 2 * lc * (y * z * gbc)) by (replace ((lb + lc) * (y * z * gbc)) with (2 * lc * (y * z * gbc) + y * z * ((lb - lc) * gbc)) by ring; rewrite Obc; ring).
    assert (E2 : (la + lc) * (x * z * gac) = 2 * lc * (x * z * gac)) by (replace ((la + lc) * (x * z * gac)) with (2 * lc * (x * z * gac) + x * z * ((la - lc) * gac)) by ring; rewrite Oac; ring).
    rewrite E1, E2. nra.
Qed.

(** * theorems *)
(** The three directions are ordered by the variance along them: none has less than the first, none more than the last. *)
Theorem C59_minvar : forall eig arr out, minvar_series eig arr = Some out -> eigenbasis (cov (masked arr)) (eig (cov (masked arr))) ->
  exists l0 e0 l1 e1 l2 e2, out = [(l0, e0); (l1, e1); (l2, e2)] /\ 0 <= l0 <= l1 /\ l1 <= l2 /\
    vdot e0 e0 = 1 /\ vdot e1 e1 = 1 /\ vdot e2 e2 = 1 /\ volume e0 e1 e2 <> 0 /\
    variance (along e0 arr) = l0 /\ variance (along e1 arr) = l1 /\ variance (along e2 arr) = l2 /\
    (l0 <> l1 -> vdot e0 e1 = 0) /\ (l1 <> l2 -> vdot e1 e2 = 0) /\ (l0 <> l2 -> vdot e0 e2 = 0) /\
    forall u, vdot u u = 1 -> l0 <= variance (along u arr) <= l2.
Proof.
  intros eig arr out H B. unfold minvar_series in H. rewrite masked_rows in *. destruct (Nat.ltb (length (finite_rows arr)) 3) eqn:E; [discriminate|]. injection H as <-.
  assert (N : finite_rows arr <> []) by (intros Z; rewrite Z in E; discriminate E). set (m := cov (finite_rows arr)) in *. assert (T : transpose m = m) by apply cov_sym.
  destruct (sort3 m _ B) as ((l0, e0) & (l1, e1) & (l2, e2) & S & O & A0 & A1 & A2 & V). cbn [fst snd] in *. exists l0, e0, l1, e1, l2, e2.
  assert (Q : forall u, vdot u (mapply m u) = variance (along u arr)) by (intros u; exact (quad_variance u _ N)).
  assert (X0 := eigen_value m _ A0). assert (X1 := eigen_value m _ A1). assert (X2 := eigen_value m _ A2). cbn [fst snd] in *. rewrite Q in X0, X1, X2.
  assert (P0 := variance_nonneg (along e0 arr)). assert (P1 := variance_nonneg (along e1 arr)). assert (P2 := variance_nonneg (along e2 arr)). rewrite X0 in P0. rewrite X1 in P1. rewrite X2 in P2. rewrite !Rabs_pos_eq in O by assumption.
  assert (O01 := eigen_orth m _ _ T A0 A1). assert (O12 := eigen_orth m _ _ T A1 A2). assert (O02 := eigen_orth m _ _ T A0 A2). cbn [fst snd] in *.
  split; [exact S|]. split; [lra|]. split; [lra|]. split; [apply A0|]. split; [apply A1|]. split; [apply A2|]. split; [exact V|]. split; [exact X0|]. split; [exact X1|]. split; [exact X2|].
  split; [intros D; apply Rmult_integral in O01; destruct O01; [lra|assumption]|]. split; [intros D; apply Rmult_integral in O12; destruct O12; [lra|assumption]|]. split; [intros D; apply Rmult_integral in O02; destruct O02; [lra|assumption]|].
  intros u U. assert (F := form_bounds m (l0, e0) (l1, e1) (l2, e2) u T A0 A1 A2 V). cbn [fst snd] in F. rewrite Q, U in F. specialize (F O). lra.
Qed.
Print Assumptions C59_minvar.

(** Samples that are not finite do not count, a constant added to all samples does not matter, and three are needed. *)
Definition shift (s : vec) (r : row) : row := let '(a, b, c) := r in (option_map (Rplus (v0 s)) a, option_map (Rplus (v1 s)) b, option_map (Rplus (v2 s)) c).
Definition full (v : vec) : row := (Some (v0 v), Some (v1 v), Some (v2 v)).
Lemma rows_full l : finite_rows (map full l) = l.
Proof. induction l as [|[a b c] l IH]; [reflexivity|]. cbn. rewrite IH. reflexivity. Qed.
Lemma rows_shift s arr : finite_rows (map (shift s) arr) = map (vadd s) (finite_rows arr).
Proof. induction arr as [|[[[a|] [b|]] [c|]] arr IH]; cbn; rewrite ?IH; reflexivity. Qed.
Lemma cov_shift s l : l <> [] -> cov (map (vadd s) l) = cov l.
Proof.
  intros N. assert (G : forall i j, cov_ij (map (vadd s) l) i j = cov_ij l i j).
  { intros i j. unfold cov_ij. rewrite !map_map, !mean_average. assert (C : forall k v, comp k (vadd s v) = comp k s + comp k v) by (intros [|[|k]] v; reflexivity).
    assert (E1 : forall k, average (map (fun v => comp k (vadd s v)) l) = comp k s + average (map (comp k) l)).
    { intros k. rewrite (average_ext _ (fun v => comp k s * 1 + 1 * comp k v)) by (intros v; rewrite C; ring). rewrite (average_lin (fun _ => 1) (comp k)), average_const by exact N. ring. }
    assert (E2 : average (map (fun v => comp i (vadd s v) * comp j (vadd s v)) l) = comp i s * comp j s + comp i s * average (map (comp j) l) + comp j s * average (map (comp i) l) + average (map (fun v => comp i v * comp j v) l)).
    { rewrite (average_ext _ (fun v => 1 * (comp i s * comp j v + comp j s * comp i v) + 1 * (1 * (comp i v * comp j v) + comp i s * comp j s * 1))) by (intros v; rewrite !C; ring).
      rewrite (average_lin (fun v => comp i s * comp j v + comp j s * comp i v) (fun v => 1 * (comp i v * comp j v) + comp i s * comp j s * 1)), (average_lin (comp j) (comp i)), (average_lin (fun v => comp i v * comp j v) (fun _ => 1)), average_const by exact N. ring. }
    rewrite !E1, E2. change mean with average. ring. }
  unfold cov. rewrite !G. reflexivity.
Qed.
Theorem C59_samples : forall eig arr,
  minvar_series eig (map full (finite_rows arr)) = minvar_series eig arr /\
  (forall s, minvar_series eig (map (shift s) arr) = minvar_series eig arr) /\
  (minvar_series eig arr = None <-> (length (finite_rows arr) < 3)%nat).
Proof.
  intros eig arr. unfold minvar_series. rewrite !masked_rows, rows_full. split; [reflexivity|]. split.
  - intros s. rewrite masked_rows, rows_shift, map_length. destruct (Nat.ltb _ 3) eqn:E; [reflexivity|]. rewrite cov_shift; [reflexivity|]. intros Z. rewrite Z in E. discriminate E.
  - destruct (Nat.ltb _ 3) eqn:E; split; intros H; try reflexivity; try discriminate; lia.
Qed.
Print Assumptions C59_samples.

(** The line around a point: of length l, with the point in the middle, in the given direction. *)
Theorem C59_around : forall p0 l d, norm d <> 0 -> exists p1 p2, around p0 l d = Some (p1, p2) /\ vscale (1 / 2) (vadd p1 p2) = p0 /\ norm (vsub p2 p1) = Rabs l /\ vscale (norm d) (vsub p2 p1) = vscale l d.
Proof.
  intros p0 l d N. unfold around. destruct (Req_EM_T (norm d) 0) as [E|_]; [contradiction|]. set (k := norm d) in *. eexists; eexists. split; [reflexivity|].
  assert (D : vsub (vadd p0 (vscale (1 / 2 * l) (vdiv d k))) (vsub p0 (vscale (1 / 2 * l) (vdiv d k))) = vscale l (vdiv d k)) by (destruct p0; mcbn; f_equal; field; exact N).
  split; [destruct p0; mcbn; f_equal; field; exact N|]. rewrite D. split; [|mcbn; f_equal; field; exact N].
  assert (U := vdot_unit d N). fold k in U. unfold norm. rewrite <- sqrt_Rsqr_abs. f_equal. unfold Rsqr. transitivity (l * l * vdot (vdiv d k) (vdiv d k)); [mcbn; ring|rewrite U; ring].
Qed.
Print Assumptions C59_around.

(** * boundary normal directions *)
Lemma unit_spec v u : unit v = Some u -> norm v <> 0 /\ u = vdiv v (norm v) /\ vdot u u = 1.
Proof. unfold unit. destruct (Req_EM_T (norm v) 0) as [E|E]; [discriminate|]. intros H. injection H as <-. split; [exact E|]. split; [reflexivity|]. apply vdot_unit, E. Qed.
Lemma norm_zero v : norm v = 0 <-> vdot v v = 0.
Proof. rewrite <- norm_sq. split; [intros ->; ring|]. intros H. apply Rmult_integral in H. destruct H; assumption. Qed.
Lemma unit_some v : vdot v v <> 0 -> exists u, unit v = Some u.
Proof. intros N. unfold unit. destruct (Req_EM_T (norm v) 0) as [E|E]; [apply norm_zero in E; contradiction|]. eexists. reflexivity. Qed.
(* the vector that gives the direction of l *)
Definition l_from (n evec_max : vec) (l_basis : option vec) (b : vec) : Prop :=
  match l_basis with
  | None => b = evec_max
  | Some v => b = v \/ (b = evec_max /\ forall u, vdot u u = 1 -> vscale (norm v) u = v -> norm (vsub n u) <= 1 / 10 ^ 4)
  end.
Lemma close1_le a b : Rabs b <= 1 -> close1 a b = true -> Rabs (a - b) <= 2 / 10 ^ 5.
Proof. intros B. unfold close1. destruct (Rle_dec _ _) as [L|]; [|discriminate]. intros _. assert (1 / 10 ^ 5 * Rabs b <= 1 / 10 ^ 5) by (apply Rle_trans with (1 / 10 ^ 5 * 1); [apply Rmult_le_compat_l; lra|lra]). lra. Qed.
Lemma abs_sq a c : 0 <= c -> Rabs a <= c -> a * a <= c * c.
Proof. intros C A. assert (0 <= Rabs a) by apply Rabs_pos. replace (a * a) with (Rabs a * Rabs a); [nra|]. unfold Rabs. destruct (Rcase_abs a); ring. Qed.
Lemma unit_abs u : vdot u u = 1 -> Rabs (v0 u) <= 1 /\ Rabs (v1 u) <= 1 /\ Rabs (v2 u) <= 1.
Proof. unfold vdot. intros U. repeat split; apply Rabs_le; nra. Qed.
Lemma allclose_norm a u : vdot u u = 1 -> allclose a u = true -> norm (vsub a u) <= 1 / 10 ^ 4.
Proof.
  intros U H. unfold allclose in H. apply andb_prop in H. destruct H as (H & H2). apply andb_prop in H. destruct H as (H0 & H1). destruct (unit_abs u U) as (U0 & U1 & U2).
  apply close1_le in H0; [|exact U0]. apply close1_le in H1; [|exact U1]. apply close1_le in H2; [|exact U2]. apply abs_sq in H0; [|lra]. apply abs_sq in H1; [|lra]. apply abs_sq in H2; [|lra].
  unfold norm. cbn [vsub v0 v1 v2]. rewrite <- (sqrt_square (1 / 10 ^ 4)) by lra. apply sqrt_le_1_alt. lra.
Qed.
Lemma pick_from n e b : l_from n e b (pick_l n e b).
Proof.
  unfold l_from, pick_l. destruct b as [v|]; [|reflexivity]. destruct (unit v) as [u|] eqn:U; [|left; reflexivity]. apply unit_spec in U. destruct U as (N & E & U1). destruct (allclose n u) eqn:A; [|left; reflexivity].
  right. split; [reflexivity|]. intros u' U' E'. assert (u' = u); [|subst u'; apply allclose_norm; assumption]. rewrite E, <- E' at 1. destruct u' as [a b c]. set (k := norm v) in *. mcbn. f_equal; field; exact N.
Qed.
Lemma frame_of n l : vdot n n = 1 -> vdot l l = 1 -> vdot l n = 0 -> frame (LMN l (cross n l) n).
Proof.
  intros N L O. unfold frame. cbn [dir_l dir_m dir_n]. split; [exact L|]. split.
  - transitivity (vdot n n * vdot l l - vdot l n * vdot l n); [mcbn; ring|rewrite N, L, O; ring].
  - split; [exact N|]. split; [mcbn; ring|]. split; [exact O|]. split; [mcbn; ring|].
    transitivity (vsub (vscale (vdot l l) n) (vscale (vdot l n) l)); [mat_ring|]. rewrite L, O. destruct n as [a b c]. mat_ring.
Qed.
(** Whenever the directions are defined they are a right handed orthonormal frame, n is the given normal and l is the
    projection of l_basis. *)
Theorem C59_lmn : forall e0 e2 lb f, lmn_directions e0 e2 lb = Some f ->
  frame f /\ vscale (norm e0) (dir_n f) = e0 /\ exists b s t, l_from (dir_n f) e2 lb b /\ 0 < s /\ dir_l f = vadd (vscale s b) (vscale t (dir_n f)) /\ 0 < vdot (dir_l f) b.
Proof.
  intros e0 e2 lb f H. unfold lmn_directions in H. destruct (unit e0) as [n|] eqn:N; [|discriminate]. apply unit_spec in N. destruct N as (N0 & N1 & N2).
  set (b := pick_l n e2 lb) in *. set (w := vsub b (vscale (vdot b n) n)) in *. destruct (unit w) as [l|] eqn:L; [|discriminate]. injection H as <-. apply unit_spec in L. destruct L as (L0 & L1 & L2).
  assert (Wn : vdot w n = 0) by (transitivity (vdot b n - vdot b n * vdot n n); [unfold w; mcbn; ring|rewrite N2; ring]).
  assert (Ln : vdot l n = 0) by (rewrite L1; transitivity (vdot w n / norm w); [mcbn; field; exact L0|rewrite Wn; field; exact L0]).
  assert (Wp : 0 < norm w) by (assert (P := norm_pos w); lra).
  split; [apply frame_of; assumption|]. cbn [dir_l dir_n]. split; [rewrite N1; set (k := norm e0) in *; destruct e0 as [x y z]; mcbn; f_equal; field; exact N0|].
  exists b, (/ norm w), (- vdot b n / norm w). split; [apply pick_from|]. split; [apply Rinv_0_lt_compat, Wp|]. split.
  - rewrite L1. clear - L0. generalize dependent (norm w). intros k K. unfold w. mcbn. f_equal; field; exact K.
  - assert (E : vdot l b = norm w); [|rewrite E; exact Wp]. transitivity (vdot l w); [|rewrite L1; transitivity (vdot w w / norm w); [set (k := norm w) in *; mcbn; field; exact L0|rewrite <- norm_sq; field; exact L0]].
    transitivity (vdot l b - vdot b n * vdot l n); [rewrite Ln; ring|unfold w; mcbn; ring].
Qed.
Print Assumptions C59_lmn.
(** They are defined if the vector for l is not parallel to the normal; parallel in the same direction is replaced. *)
Lemma cross_perp b e n k : k <> 0 -> n = vdiv e k -> vdot n n = 1 -> vdot (vsub b (vscale (vdot b n) n)) (vsub b (vscale (vdot b n) n)) = 0 -> cross b e = VEC 0 0 0.
Proof.
  intros K N U H. assert (Q : vdot (cross b n) (cross b n) = 0).
  { transitivity (vdot b b * vdot n n - vdot b n * vdot b n); [mcbn; ring|]. rewrite U. rewrite <- H. transitivity (vdot b b - 2 * (vdot b n * vdot b n) + vdot b n * vdot b n * vdot n n); [rewrite U; ring|mcbn; ring]. }
  assert (Z : cross b n = VEC 0 0 0).
  { unfold vdot in Q. destruct (cross b n) as [x y z]. cbn [v0 v1 v2] in Q. f_equal; nra. }
  transitivity (vscale k (cross b n)); [subst n; mcbn; f_equal; field; exact K|]. rewrite Z. mcbn. f_equal; ring.
Qed.
Lemma lmn_some e0 e2 lb : vdot e0 e0 <> 0 -> (forall n, unit e0 = Some n -> cross (pick_l n e2 lb) e0 <> VEC 0 0 0) -> exists f, lmn_directions e0 e2 lb = Some f.
Proof.
  intros N H. destruct (unit_some e0 N) as (n & U). unfold lmn_directions. rewrite U. specialize (H n U). apply unit_spec in U. destruct U as (K & E & U).
  destruct (unit_some (vsub (pick_l n e2 lb) (vscale (vdot (pick_l n e2 lb) n) n))) as (l & L); [|rewrite L; eexists; reflexivity]. intros Z. apply H. exact (cross_perp _ e0 n (norm e0) K E U Z).
Qed.
Theorem C59_defined : forall e0 e2, cross e2 e0 <> VEC 0 0 0 ->
  (exists f, lmn_directions e0 e2 None = Some f) /\
  (forall b, cross b e0 <> VEC 0 0 0 -> exists f, lmn_directions e0 e2 (Some b) = Some f) /\
  (forall c, 0 < c -> lmn_directions e0 e2 (Some (vscale c e0)) = lmn_directions e0 e2 None).
Proof.
  intros e0 e2 X. assert (N : vdot e0 e0 <> 0).
  { intros Z. apply X. unfold vdot in Z. destruct e0 as [x y z]. cbn [v0 v1 v2] in Z. assert (x = 0) by nra. assert (y = 0) by nra. assert (z = 0) by nra. subst. mcbn. f_equal; ring. }
  split; [apply lmn_some; [exact N|intros n _; exact X]|]. split.
  - intros b B. apply lmn_some; [exact N|]. intros n _. unfold pick_l. destruct (unit b) as [u|]; [|exact B]. destruct (allclose n u); assumption.
  - intros c C. unfold lmn_directions. destruct (unit e0) as [n|] eqn:U; [|reflexivity]. replace (pick_l n e2 (Some (vscale c e0))) with (pick_l n e2 None); [reflexivity|]. cbn [pick_l].
    assert (E : unit (vscale c e0) = Some n); [|rewrite E; replace (allclose n n) with true; [reflexivity|]].
    + apply unit_spec in U. destruct U as (K & E & _). assert (M : norm (vscale c e0) = c * norm e0).
      { unfold norm. cbn [vscale v0 v1 v2]. rewrite <- (sqrt_square c) at 7 by lra. rewrite <- sqrt_mult_alt by nra. f_equal. ring. }
      unfold unit. rewrite M. destruct (Req_EM_T (c * norm e0) 0) as [Z|_]; [apply Rmult_integral in Z; destruct Z; [lra|contradiction]|]. f_equal. rewrite E. set (k := norm e0) in *. mcbn. f_equal; field; split; try exact K; lra.
    + assert (R : forall x, close1 x x = true) by (intros x; unfold close1; destruct (Rle_dec _ _) as [|Q]; [reflexivity|exfalso; apply Q; rewrite Rminus_diag_eq, Rabs_R0 by reflexivity; assert (P := Rabs_pos x); nra]). unfold allclose. rewrite !R. reflexivity.
Qed.
Print Assumptions C59_defined.
(** From samples to directions: n is a direction of least variance. *)
Theorem C59_find : forall eig arr, (3 <= length (finite_rows arr))%nat -> eigenbasis (cov (masked arr)) (eig (cov (masked arr))) ->
  (exists f, find_minvar_lmn eig arr None = Some f) /\
  forall lb f, find_minvar_lmn eig arr lb = Some f -> frame f /\ forall u, vdot u u = 1 -> variance (along (dir_n f) arr) <= variance (along u arr).
Proof.
  intros eig arr N B. unfold find_minvar_lmn. destruct (minvar_series eig arr) as [out|] eqn:M; [|apply C59_samples in M; lia].
  destruct (C59_minvar eig arr out M B) as (l0 & e0 & l1 & e1 & l2 & e2 & E & _ & _ & U0 & _ & _ & V & X0 & _ & _ & _ & _ & _ & F). subst out.
  split.
  - apply C59_defined. intros Z. apply V. transitivity (vdot (cross e2 e0) e1); [unfold volume; mcbn; ring|rewrite Z; mcbn; ring].
  - intros lb f H. destruct (C59_lmn e0 e2 lb f H) as (Fr & Dn & _). split; [exact Fr|]. intros u U. assert (Nn : norm e0 = 1) by (unfold norm; fold (vdot e0 e0); rewrite U0; apply sqrt_1).
    assert (D : dir_n f = e0) by (rewrite <- Dn, Nn; destruct (dir_n f); mcbn; f_equal; ring). rewrite D, X0. apply (F u U).
Qed.
Print Assumptions C59_find.
(** * refuted *)
(** The sign of an eigenvector is arbitrary, but l_basis opposite to it is not replaced: all of l is nan. *)
Theorem C59_antiparallel_refuted : forall e0 e2 c, 0 < c -> vdot e0 e0 = 1 -> lmn_directions e0 e2 (Some (vscale (- c) e0)) = None.
Proof.
  intros e0 e2 c C U. unfold lmn_directions. assert (Nn : norm e0 = 1) by (unfold norm; fold (vdot e0 e0); rewrite U; apply sqrt_1). unfold unit at 1. rewrite Nn. destruct (Req_EM_T 1 0) as [Z|_]; [lra|].
  replace (vdiv e0 1) with e0 by (destruct e0; mcbn; f_equal; field).
  assert (P : pick_l e0 e2 (Some (vscale (- c) e0)) = vscale (- c) e0).
  { cbn [pick_l]. assert (M : norm (vscale (- c) e0) = c). { unfold norm. replace (v0 (vscale (- c) e0) * v0 (vscale (- c) e0) + v1 (vscale (- c) e0) * v1 (vscale (- c) e0) + v2 (vscale (- c) e0) * v2 (vscale (- c) e0)) with (c * c * vdot e0 e0) by (mcbn; ring). rewrite U, Rmult_1_r. apply sqrt_square. lra. }
    unfold unit. rewrite M. destruct (Req_EM_T c 0) as [Z|_]; [lra|]. destruct (allclose e0 _) eqn:A; [exfalso|reflexivity]. apply allclose_norm in A; [|transitivity (vdot e0 e0); [mcbn; field; lra|exact U]].
    assert (D : norm (vsub e0 (vdiv (vscale (- c) e0) c)) = 2); [|lra]. unfold norm. match goal with |- sqrt ?x = 2 => replace x with (2 * 2 * vdot e0 e0) by (mcbn; field; lra) end. rewrite U, Rmult_1_r. apply sqrt_square. lra. }
  rewrite P. unfold unit. replace (norm _) with 0; [destruct (Req_EM_T 0 0) as [_|Z]; [reflexivity|contradiction]|]. symmetry. apply norm_zero. transitivity (c * c * vdot e0 e0 * ((1 - vdot e0 e0) * (1 - vdot e0 e0))); [mcbn; ring|rewrite U; ring].
Qed.
Print Assumptions C59_antiparallel_refuted.

(** * the hypotheses can be met *)
Definition demo : list row := [(Some 3, Some 5, Some 1); (Some 3, Some 5, Some (-1)); (None, Some 1, Some 1); (Some 3, Some 1, Some 1); (Some 3, Some 1, Some (-1))].
Definition demo_eig : mat -> list (R * vec) := fun _ => [(4, VEC 0 1 0); (0, VEC (-1) 0 0); (1, VEC 0 0 1)].
Example C59_nonvacuous : eigenbasis (cov (masked demo)) (demo_eig (cov (masked demo))) /\ minvar_series demo_eig demo = Some [(0, VEC (-1) 0 0); (1, VEC 0 0 1); (4, VEC 0 1 0)] /\ (3 <= length (finite_rows demo))%nat /\ variance (along (VEC (3 / 5) (4 / 5) 0) demo) = 64 / 25.
Proof.
  split; [|split; [|split; [cbn; lia|unfold along, variance, average, vdot; cbn [finite_rows demo map total length v0 v1 v2 INR]; field]]].
  - exists (4, VEC 0 1 0), (0, VEC (-1) 0 0), (1, VEC 0 0 1). split; [reflexivity|]. unfold eigen, volume, cov, cov_ij, mean. cbn [fst snd]. cbn [masked demo flat_map finite app map fold_right length comp v0 v1 v2 INR]. repeat split; mcbn; try (f_equal; field); try lra.
  - unfold minvar_series. cbn [masked demo flat_map finite app length Nat.ltb Nat.leb]. unfold demo_eig, sort. cbn [fold_right insert fst]. rewrite Rabs_R0, (Rabs_pos_eq 1) by lra.
    destruct (Rle_dec 0 1) as [_|Z]; [|lra]. cbn [insert fst]. rewrite Rabs_R0, (Rabs_pos_eq 4) by lra. destruct (Rle_dec 4 0) as [Z|_]; [lra|]. rewrite (Rabs_pos_eq 1) by lra. destruct (Rle_dec 4 1) as [Z|_]; [lra|]. reflexivity.
Qed.
