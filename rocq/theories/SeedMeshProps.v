(** C54: the mesh of a sphere and the values put on it match. *)
From Verif Require Import RotProofs RotProps AxisProps SeedModel SeedProps.
From Verif Require PointsProps.
From Coq Require Import Lra Lia.
Open Scope R_scope.

(** * specification: what stands at a vertex of the mesh *)
(* a seed by its place in the list of seeds, or one of the two added poles *)
Inductive src := Seed (k : nat) | Pole0 | Pole1.
(* place of the seed with the i-th theta and j-th phi *)
Definition place (s : sphere) (i j : nat) : nat := if s_theta_phi s then (i * s_nphi s + j)%nat else (j * s_ntheta s + i)%nat.
Definition average (l : list R) : R := fold_right Rplus 0 l / INR (length l).
Definition vertex (s : sphere) (x : src) : vec :=
  match x with
  | Seed k => nth k (sphere_points s) (VEC 0 0 0)
  | Pole0 => vadd (s_p0 s) (vscale (s_r s) (s_pole s))
  | Pole1 => vsub (s_p0 s) (vscale (s_r s) (s_pole s))
  end.
Definition value (s : sphere) (arr : list R) (x : src) : R :=
  match x with
  | Seed k => nth k arr 0
  | Pole0 => average (map (fun j => nth (place s 0 j) arr 0) (seq 0 (s_nphi s)))
  | Pole1 => average (map (fun j => nth (place s (s_ntheta s - 1) j) arr 0) (seq 0 (s_nphi s)))
  end.

(** * one mesh for both *)
Definition add0 {A} (s : sphere) (north : A) (a : list (list A)) := if fst (skipped_poles s) then (if s_theta_phi s then repeat north (s_nphi s) :: a else map (fun row => north :: row) a) else a.
Definition add1 {A} (s : sphere) (south : A) (a : list (list A)) := if snd (skipped_poles s) then (if s_theta_phi s then a ++ [repeat south (s_nphi s)] else map (fun row => row ++ [south]) a) else a.
Definition seam {A} (s : sphere) (a : list (list A)) := if spans_phi s && negb (phi_endpoint s) then (if s_theta_phi s then map (fun row => row ++ firstn 1 row) a else a ++ firstn 1 a) else a.
Definition flip {A} (s : sphere) (a : list (list A)) := if s_theta_phi s then a else rev a.
Definition mesh_of {A} (s : sphere) (a : list (list A)) (north south : A) : list (list A) := flip s (seam s (add1 s south (add0 s north a))).
Lemma map_repeat {A B} (f : A -> B) x n : map f (repeat x n) = repeat (f x) n.
Proof. induction n as [|n IH]; [reflexivity|]. cbn. rewrite IH. reflexivity. Qed.
Lemma map_firstn {A B} (f : A -> B) n l : map f (firstn n l) = firstn n (map f l).
Proof. revert l. induction n as [|n IH]; intros [|x l]; [reflexivity..|]. cbn. rewrite IH. reflexivity. Qed.
Lemma mesh_natural {A B} (f : A -> B) s a n n' : mesh_of s (map (map f) a) (f n) (f n') = map (map f) (mesh_of s a n n').
Proof.
  unfold mesh_of.
  assert (N0 : forall a, add0 s (f n) (map (map f) a) = map (map f) (add0 s n a)) by (intros b; unfold add0; destruct (fst (skipped_poles s)); [|reflexivity]; destruct (s_theta_phi s); [cbn [map]; rewrite map_repeat; reflexivity|rewrite !map_map; reflexivity]).
  assert (N1 : forall a, add1 s (f n') (map (map f) a) = map (map f) (add1 s n' a)) by (intros b; unfold add1; destruct (snd (skipped_poles s)); [|reflexivity]; destruct (s_theta_phi s); [rewrite map_app; cbn [map]; rewrite map_repeat; reflexivity|rewrite !map_map; apply map_ext; intros r; rewrite map_app; reflexivity]).
  assert (N2 : forall a, seam s (map (map f) a) = map (map f) (seam s a)) by (intros b; unfold seam; destruct (spans_phi s && negb (phi_endpoint s)); [|reflexivity]; destruct (s_theta_phi s); [rewrite !map_map; apply map_ext; intros r; rewrite map_app, map_firstn; reflexivity|rewrite map_app, map_firstn; reflexivity]).
  assert (N3 : forall a, flip s (map (map f) a) = map (map f) (flip s a)) by (intros b; unfold flip; destruct (s_theta_phi s); [reflexivity|rewrite map_rev; reflexivity]).
  rewrite N0, N1, N2, N3. reflexivity.
Qed.
Lemma mesh_forall {A} (P : A -> Prop) s a n n' : P n -> P n' -> Forall (Forall P) a -> Forall (Forall P) (mesh_of s a n n').
Proof.
  intros Pn Pn' H. unfold mesh_of. assert (Rp : forall x k, P x -> Forall P (repeat x k)) by (intros x k Px; apply Forall_forall; intros y I; apply repeat_spec in I; subst y; exact Px).
  assert (F1 : forall (l : list A), Forall P l -> Forall P (firstn 1 l)) by (intros [|x l] F; [constructor|inversion F; constructor; [assumption|constructor]]). assert (F2 : forall (l : list (list A)), Forall (Forall P) l -> Forall (Forall P) (firstn 1 l)) by (intros [|x l] F; [constructor|inversion F; constructor; [assumption|constructor]]).
  assert (M : forall (g : list A -> list A) l, (forall r, Forall P r -> Forall P (g r)) -> Forall (Forall P) l -> Forall (Forall P) (map g l)) by (intros g l Hg F; apply Forall_forall; intros r I; apply in_map_iff in I; destruct I as (r' & <- & I); apply Hg; rewrite Forall_forall in F; apply F, I).
  assert (H0 : Forall (Forall P) (add0 s n a)) by (unfold add0; destruct (fst (skipped_poles s)); [|exact H]; destruct (s_theta_phi s); [constructor; [apply Rp, Pn|exact H]|apply M; [intros r Hr; constructor; assumption|exact H]]). revert H0. generalize (add0 s n a). clear a H. intros a H.
  assert (H0 : Forall (Forall P) (add1 s n' a)) by (unfold add1; destruct (snd (skipped_poles s)); [|exact H]; destruct (s_theta_phi s); [apply Forall_app; split; [exact H|constructor; [apply Rp, Pn'|constructor]]|apply M; [intros r Hr; apply Forall_app; split; [exact Hr|constructor; [exact Pn'|constructor]]|exact H]]). revert H0. generalize (add1 s n' a). clear a H. intros a H.
  assert (H0 : Forall (Forall P) (seam s a)) by (unfold seam; destruct (spans_phi s && negb (phi_endpoint s)); [|exact H]; destruct (s_theta_phi s); [apply M; [intros r Hr; apply Forall_app; split; [exact Hr|apply F1, Hr]|exact H]|apply Forall_app; split; [exact H|apply F2, H]]). revert H0. generalize (seam s a). clear a H. intros a H.
  unfold flip. destruct (s_theta_phi s); [exact H|]. apply Forall_rev, H.
Qed.
Lemma rows_eq {A} (d : A) nv : forall nu l, length l = (nu * nv)%nat -> PointsModel.rows nu nv l = map (fun u => map (fun v => nth (u * nv + v) l d) (seq 0 nv)) (seq 0 nu).
Proof.
  induction nu as [|nu IH]; intros l H; [reflexivity|]. cbn [PointsModel.rows seq map]. f_equal.
  - cbn [Nat.mul Nat.add]. apply nth_ext with (d := d) (d' := d); [rewrite map_length, seq_length, firstn_length; lia|]. intros i Hi. rewrite firstn_length in Hi. assert (i < nv)%nat by lia.
    rewrite (nth_indep (map _ _) d (nth 0 l d)) by (rewrite map_length, seq_length; lia). rewrite (map_nth (fun v => nth v l d)), seq_nth by lia. cbn [Nat.add].
    rewrite <- (firstn_skipn nv l) at 2. rewrite app_nth1 by (rewrite firstn_length; lia). reflexivity.
  - rewrite IH by (rewrite skipn_length; lia). rewrite <- seq_shift, map_map. apply map_ext. intros u. apply map_ext. intros v. rewrite <- (firstn_skipn nv l) at 2. rewrite app_nth2 by (rewrite firstn_length; lia). f_equal. rewrite firstn_length. lia.
Qed.
(** the mesh of places *)
Definition layout (s : sphere) : list (list src) :=
  mesh_of s (map (fun u => map (fun v => Seed (u * snd (uv_shape s) + v)) (seq 0 (snd (uv_shape s)))) (seq 0 (fst (uv_shape s)))) Pole0 Pole1.
Lemma length_points s : length (sphere_points s) = (fst (uv_shape s) * snd (uv_shape s))%nat.
Proof. unfold sphere_points. rewrite map_length, angles_eq. unfold uv_shape. destruct (s_theta_phi s); rewrite ?map_length, prod_length, length_theta, length_phi; reflexivity. Qed.
Lemma mean_average l : mean l = average l.
Proof. reflexivity. Qed.
Lemma last_map_seq {B} (f : nat -> B) n d : (1 <= n)%nat -> last (map f (seq 0 n)) d = f (n - 1)%nat.
Proof. intros H. destruct n as [|n]; [lia|]. rewrite seq_S, map_app. cbn [map Nat.add]. rewrite last_last. f_equal. lia. Qed.
Lemma last_cons {B} (x : B) l d : l <> [] -> last (x :: l) d = last l d.
Proof. destruct l; [congruence|reflexivity]. Qed.
Lemma arr2mesh_eq s arr : (1 <= s_ntheta s)%nat -> (1 <= s_nphi s)%nat -> length arr = (s_ntheta s * s_nphi s)%nat ->
  sphere_arr2mesh s true arr = mesh_of s (PointsModel.rows (fst (uv_shape s)) (snd (uv_shape s)) arr) (value s arr Pole0) (value s arr Pole1).
Proof.
  intros Ht Hp L. unfold sphere_arr2mesh, mesh_of, flip, seam, add1, add0. cbn [negb]. cbn [value]. unfold place. rewrite (rows_eq 0) by (unfold uv_shape; destruct (s_theta_phi s); cbn [fst snd]; lia). unfold uv_shape. destruct (s_theta_phi s) eqn:E; cbn [fst snd].
  - set (rws := map _ (seq 0 (s_ntheta s))). set (m0 := average (map (fun j => nth (0 * s_nphi s + j) arr 0) (seq 0 (s_nphi s)))). set (m1 := average (map (fun j => nth ((s_ntheta s - 1) * s_nphi s + j) arr 0) (seq 0 (s_nphi s)))).
    assert (H0 : hd [] rws = map (fun j => nth (0 * s_nphi s + j) arr 0) (seq 0 (s_nphi s))) by (unfold rws; destruct (s_ntheta s); [lia|reflexivity]).
    assert (H1 : last rws [] = map (fun j => nth ((s_ntheta s - 1) * s_nphi s + j) arr 0) (seq 0 (s_nphi s))) by (unfold rws; rewrite last_map_seq by exact Ht; reflexivity).
    assert (Ln : length (hd [] rws) = s_nphi s) by (rewrite H0, map_length, seq_length; reflexivity). assert (Ne : rws <> []) by (unfold rws; destruct (s_ntheta s); [lia|discriminate]).
    assert (M0 : mean (hd [] rws) = m0) by (rewrite H0; reflexivity). assert (M1 : mean (last rws []) = m1) by (rewrite H1; reflexivity). clearbody rws m0 m1. destruct (fst (skipped_poles s)); [|rewrite M1, Ln; reflexivity].
    rewrite M0, Ln. cbn [hd]. rewrite last_cons, M1, repeat_length by exact Ne. reflexivity.
  - set (rws := map _ (seq 0 (s_nphi s))). set (m0 := average (map (fun j => nth (j * s_ntheta s + 0) arr 0) (seq 0 (s_nphi s)))). set (m1 := average (map (fun j => nth (j * s_ntheta s + (s_ntheta s - 1)) arr 0) (seq 0 (s_nphi s)))).
    assert (M0 : mean (map (hd 0) rws) = m0).
    { unfold m0, rws. rewrite mean_average, map_map. f_equal. apply map_ext. intros j. destruct (s_ntheta s); [lia|reflexivity]. }
    assert (M1 : forall x, mean (map (fun row => last row 0) (map (fun row : list R => x :: row) rws)) = m1 /\ mean (map (fun row => last row 0) rws) = m1).
    { intros x. unfold m1, rws. rewrite !map_map, !mean_average. split; apply (f_equal average); apply map_ext; intros j; [rewrite last_cons by (destruct (s_ntheta s); [lia|discriminate])|]; apply last_map_seq with (f := fun v => nth (j * s_ntheta s + v) arr 0); exact Ht. }
    clearbody rws m0 m1. rewrite M0. destruct (fst (skipped_poles s)); [rewrite (proj1 (M1 m0))|rewrite (proj2 (M1 0))]; reflexivity.
Qed.
(** * C54 *)
(** One arrangement of seeds and poles, which depends on the sphere only, describes the vertices
    and, for every array of values on the seeds, the values: so vertex and value arrays have the same
    shape and every vertex that is a seed carries the value of this seed; an added pole carries the
    average of the seeds of the ring next to it. *)
Theorem C54_match : forall s arr, (1 <= s_ntheta s)%nat -> (1 <= s_nphi s)%nat -> length arr = (s_ntheta s * s_nphi s)%nat ->
  sphere_mesh s true = map (map (vertex s)) (layout s) /\ sphere_arr2mesh s true arr = map (map (value s arr)) (layout s).
Proof.
  intros s arr Ht Hp L. assert (Lu : length arr = (fst (uv_shape s) * snd (uv_shape s))%nat) by (unfold uv_shape; destruct (s_theta_phi s); cbn [fst snd]; lia). split.
  - unfold layout. rewrite <- mesh_natural. unfold sphere_mesh. cbn [negb]. rewrite (rows_eq (VEC 0 0 0)) by apply length_points.
    assert (P0 : vadd (s_p0 s) (vscale 1 (vscale (s_r s) (s_pole s))) = vertex s Pole0) by (cbn [vertex]; f_equal; unfold vscale; cbn [v0 v1 v2]; f_equal; ring).
    assert (P1 : vadd (s_p0 s) (vscale (-1) (vscale (s_r s) (s_pole s))) = vertex s Pole1) by (cbn [vertex]; unfold vadd, vsub, vscale; cbn [v0 v1 v2]; f_equal; ring). rewrite P0, P1.
    assert (E : map (fun u => map (fun v => nth (u * snd (uv_shape s) + v) (sphere_points s) (VEC 0 0 0)) (seq 0 (snd (uv_shape s)))) (seq 0 (fst (uv_shape s))) = map (map (vertex s)) (map (fun u => map (fun v => Seed (u * snd (uv_shape s) + v)) (seq 0 (snd (uv_shape s)))) (seq 0 (fst (uv_shape s))))) by (rewrite map_map; apply map_ext; intros u; rewrite map_map; reflexivity). rewrite E. reflexivity.
  - rewrite arr2mesh_eq by assumption. unfold layout. rewrite <- mesh_natural. rewrite (rows_eq 0) by exact Lu. rewrite map_map. f_equal. apply map_ext. intros u. rewrite map_map. reflexivity.
Qed.
Print Assumptions C54_match.
Lemma in_app_or2 {A} (x : A) l m : In x l \/ In x m -> In x (l ++ m).
Proof. intros H. apply in_app_iff. exact H. Qed.
(** Every seed is a vertex; *)
Theorem C54_all_seeds : forall s k, (k < s_ntheta s * s_nphi s)%nat -> exists row, In row (layout s) /\ In (Seed k) row.
Proof.
  intros s k H. set (nv := snd (uv_shape s)). assert (Hk : (k < fst (uv_shape s) * nv)%nat) by (unfold nv, uv_shape; destruct (s_theta_phi s); cbn [fst snd]; lia). assert (Nv : nv <> 0%nat) by nia.
  assert (R : exists row, In row (map (fun u => map (fun v => Seed (u * nv + v)) (seq 0 nv)) (seq 0 (fst (uv_shape s)))) /\ In (Seed k) row).
  { exists (map (fun v => Seed (k / nv * nv + v)) (seq 0 nv)). split; [apply in_map_iff; exists (k / nv)%nat; split; [reflexivity|]; apply in_seq; split; [apply Nat.le_0_l|]; apply Nat.div_lt_upper_bound; [exact Nv|rewrite Nat.mul_comm; exact Hk]|].
    apply in_map_iff. exists (k mod nv)%nat. split; [f_equal; rewrite Nat.mul_comm; symmetry; apply Nat.div_mod, Nv|]. apply in_seq. split; [apply Nat.le_0_l|]. apply Nat.mod_upper_bound, Nv. }
  unfold layout. fold nv. set (a := map _ (seq 0 (fst (uv_shape s)))) in *. clearbody a. clear - R. unfold mesh_of, flip, seam, add1, add0. destruct (s_theta_phi s).
  - assert (R1 : exists row, In row (if fst (skipped_poles s) then repeat Pole0 (s_nphi s) :: a else a) /\ In (Seed k) row) by (destruct R as (row & I & J); exists row; split; [destruct (fst (skipped_poles s)); [right|]; exact I|exact J]). set (b := if fst (skipped_poles s) then _ else _) in *. clearbody b. 
    assert (R2 : exists row, In row (if snd (skipped_poles s) then b ++ [repeat Pole1 (s_nphi s)] else b) /\ In (Seed k) row) by (destruct R1 as (row & I & J); exists row; split; [destruct (snd (skipped_poles s)); [apply in_app_or2; left|]; exact I|exact J]). set (c := if snd (skipped_poles s) then _ else _) in *. clearbody c.
    destruct (spans_phi s && negb (phi_endpoint s)); [|exact R2]. destruct R2 as (row & I & J). exists (row ++ firstn 1 row). split; [apply in_map_iff; exists row; auto|apply in_app_or2; left; exact J].
  - assert (R1 : exists row, In row (if fst (skipped_poles s) then map (fun row => Pole0 :: row) a else a) /\ In (Seed k) row).
    { destruct R as (row & I & J). destruct (fst (skipped_poles s)); [exists (Pole0 :: row); split; [apply in_map_iff; exists row; auto|right; exact J]|exists row; auto]. } set (b := if fst (skipped_poles s) then _ else _) in *. clearbody b.
    assert (R2 : exists row, In row (if snd (skipped_poles s) then map (fun row => row ++ [Pole1]) b else b) /\ In (Seed k) row).
    { destruct R1 as (row & I & J). destruct (snd (skipped_poles s)); [exists (row ++ [Pole1]); split; [apply in_map_iff; exists row; auto|apply in_app_or2; left; exact J]|exists row; auto]. } set (c := if snd (skipped_poles s) then _ else _) in *. clearbody c.
    destruct R2 as (row & I & J). exists row. split; [|exact J]. apply -> in_rev. destruct (spans_phi s && negb (phi_endpoint s)); [apply in_app_or2; left|]; exact I.
Qed.
Print Assumptions C54_all_seeds.
(** and every vertex is on the sphere. *)
Theorem C54_on_sphere : forall p0 r pole iv nt np tl pl te pe tp roll gse cap s, (1 <= nt)%nat -> (1 <= np)%nat ->
  make_sphere p0 r pole iv nt np tl pl te pe tp roll gse cap = Some s ->
  forall row v, In row (sphere_mesh s true) -> In v row -> norm (vsub v p0) = Rabs (s_r s).
Proof.
  intros p0 r pole iv nt np tl pl te pe tp roll gse cap s Hn Hp H row v I J. destruct (C35_sphere _ _ _ _ _ _ _ _ _ _ _ _ _ _ _ H) as (Lp & D & _). pose proof (made _ _ _ _ _ _ _ _ _ _ _ _ _ _ _ H) as M. clear H. cbv zeta in *. set (d := if iv then pole else vsub pole p0) in *. clearbody d. destruct M as (Nd & Ep & Er & Eo & Et & Eh & _ & _ & _ & _ & _ & _ & U).
  assert (Dr : forall q, In q (sphere_points s) -> norm (vsub q p0) = Rabs (s_r s)) by (intros q Iq; rewrite (D q Iq), Er; destruct (Req_EM_T r 0); [rewrite Rabs_right by (pose proof (norm_pos d); lra)|]; reflexivity).
  destruct (C54_match s (repeat 0 (s_ntheta s * s_nphi s))) as (E & _); [lia|lia|apply repeat_length|]. rewrite E in I. apply in_map_iff in I. destruct I as (w & <- & Iw). apply in_map_iff in J. destruct J as (x & <- & Jx).
  assert (Np : forall c, c * c = 1 -> norm (vsub (vadd (s_p0 s) (vscale c (vscale (s_r s) (s_pole s)))) p0) = Rabs (s_r s)).
  { intros c C. rewrite Ep, vadd_sub. rewrite <- sqrt_Rsqr_abs. unfold norm, Rsqr. f_equal. unfold vscale. cbn [v0 v1 v2]. transitivity (c * c * (s_r s * s_r s) * vdot (s_pole s) (s_pole s)); [unfold vdot; ring|]. rewrite U, C. ring. }
  destruct x as [k| |]; cbn [vertex].
  - destruct (Nat.lt_ge_cases k (length (sphere_points s))) as [L|L]; [apply Dr, nth_In, L|]. exfalso.
    (* no place beyond the seeds occurs *)
    assert (B : Forall (Forall (fun x => match x with Seed k => (k < length (sphere_points s))%nat | _ => True end)) (layout s)).
    { rewrite length_points. unfold layout. set (nv := snd (uv_shape s)). set (nu := fst (uv_shape s)). assert (A0 : Forall (Forall (fun x => match x with Seed k => (k < nu * nv)%nat | _ => True end)) (map (fun u => map (fun v => Seed (u * nv + v)) (seq 0 nv)) (seq 0 nu))).
      { apply Forall_forall. intros r0 I. apply in_map_iff in I. destruct I as (u & <- & Iu). apply in_seq in Iu. apply Forall_forall. intros x I. apply in_map_iff in I. destruct I as (v & <- & Iv). apply in_seq in Iv. nia. }
      apply mesh_forall; [exact Logic.I|exact Logic.I|exact A0]. }
    rewrite Forall_forall in B. specialize (B w Iw). rewrite Forall_forall in B. specialize (B _ Jx). cbn in B. lia.
  - assert (V : vscale (s_r s) (s_pole s) = vscale 1 (vscale (s_r s) (s_pole s))) by (unfold vscale; cbn [v0 v1 v2]; f_equal; ring). rewrite V. apply Np. ring.
  - assert (V : vsub (s_p0 s) (vscale (s_r s) (s_pole s)) = vadd (s_p0 s) (vscale (-1) (vscale (s_r s) (s_pole s)))) by (unfold vsub, vadd, vscale; cbn [v0 v1 v2]; f_equal; ring). rewrite V. apply Np. ring.
Qed.
Print Assumptions C54_on_sphere.

(** A whole turn in phi is closed: the first and the last line of the mesh are the same points. *)
Lemma last_app1 {A} (l : list A) x d : last (l ++ [x]) d = x.
Proof. apply last_last. Qed.
Theorem C54_closed : forall s d, (1 <= s_ntheta s)%nat -> (1 <= s_nphi s)%nat -> spans_phi s = true -> phi_endpoint s = false ->
  if s_theta_phi s then forall row, In row (sphere_mesh s true) -> hd d row = last row d
  else hd [] (sphere_mesh s true) = last (sphere_mesh s true) [].
Proof.
  intros s d Ht Hp Sp Pe. unfold sphere_mesh. rewrite Sp, Pe. cbn [negb andb]. rewrite (rows_eq (VEC 0 0 0)) by apply length_points. unfold uv_shape. destruct (s_theta_phi s); cbn [fst snd].
  - intros row I. apply in_map_iff in I. destruct I as (r & <- & _). destruct r as [|x r]; [reflexivity|]. cbn [firstn]. rewrite last_last. reflexivity.
  - set (b := if snd (skipped_poles s) then _ else _). assert (N : b <> []).
    { unfold b. destruct (s_nphi s) as [|k]; [lia|]. destruct (snd (skipped_poles s)), (fst (skipped_poles s)); cbn [seq map]; discriminate. }
    destruct b as [|x b]; [congruence|]. cbn [firstn]. rewrite rev_app_distr. cbn [rev app hd]. rewrite app_comm_cons. rewrite last_last. reflexivity.
Qed.
Print Assumptions C54_closed.
(** The poles added where theta starts at 0 or ends at 180 degrees are the points of the sphere
    there; *)
Theorem C54_poles : forall s p, vdot (s_pole s) (s_pole s) = 1 -> clear_pair (VEC 0 0 1) (s_pole s) ->
  (fst (s_theta s) = 0 -> vertex s Pole0 = sphere_to_3d s (fst (s_theta s), p)) /\ (snd (s_theta s) = PI -> vertex s Pole1 = sphere_to_3d s (snd (s_theta s), p)).
Proof.
  intros s p U C. destruct (pole_ok s U) as (_ & Cl). specialize (Cl C). unfold sphere_to_3d. cbn [fst snd vertex].
  assert (Z : forall c, mapply (sphere_rotation s) (VEC 0 0 (s_r s * c)) = vscale (s_r s * c) (s_pole s)) by (intros c; rewrite <- Cl; unfold mapply, vscale; cbn [v0 v1 v2]; f_equal; ring).
  split; intros ->.
  - unfold on_sphere. rewrite sin_0, cos_0. replace (VEC _ _ _) with (VEC 0 0 (s_r s * 1)) by (f_equal; ring). rewrite Z, Rmult_1_r. reflexivity.
  - unfold on_sphere. rewrite sin_PI, cos_PI. replace (VEC _ _ _) with (VEC 0 0 (s_r s * -1)) by (f_equal; ring). rewrite Z. unfold vsub, vadd, vscale. cbn [v0 v1 v2]. f_equal; ring.
Qed.
Print Assumptions C54_poles.
(** with the limits reversed the wrong pole is added. *)
Theorem C54_reversed_refuted : forall p0 r pole iv nt np lo pl pe tp roll gse s p, clear_pair (VEC 0 0 1) (s_pole s) ->
  make_sphere p0 r pole iv nt np (180, lo) pl AutoEnds pe tp roll gse false = Some s ->
  fst (skipped_poles s) = true /\ vertex s Pole0 <> sphere_to_3d s (fst (s_theta s), p).
Proof.
  intros p0 r pole iv nt np lo pl pe tp roll gse s p C H. pose proof (made _ _ _ _ _ _ _ _ _ _ _ _ _ _ _ H) as M. clear H. cbv zeta in M. destruct M as (Nd & Ep & Er & Eo & Et & Eh & Elt & _ & Ete & _ & _ & Ecap & U).
  assert (T : fst (s_theta s) = PI) by (rewrite Elt; cbn [fst]; unfold deg2rad; field). assert (A : at_pole PI = true).
  { unfold at_pole. apply orb_true_iff. right. unfold isclose. destruct (Rle_dec _ _) as [|N]; [reflexivity|]. exfalso. apply N. rewrite Rminus_eq_0, Rabs_R0. pose proof (Rabs_pos PI). cbn [pow]. lra. }
  split; [unfold skipped_poles, theta_endpoints; rewrite Ete, Ecap; cbn [fst]; rewrite T, A; reflexivity|].
  destruct (pole_ok s U) as (_ & Cl). specialize (Cl C). unfold sphere_to_3d. cbn [fst snd vertex]. rewrite T. unfold on_sphere. rewrite sin_PI, cos_PI. replace (VEC _ _ _) with (VEC 0 0 (- s_r s)) by (f_equal; ring).
  assert (Z : mapply (sphere_rotation s) (VEC 0 0 (- s_r s)) = vscale (- s_r s) (s_pole s)) by (rewrite <- Cl; unfold mapply, vscale; cbn [v0 v1 v2]; f_equal; ring). rewrite Z. intros E.
  assert (R0 : s_r s <> 0) by (rewrite Er; destruct (Req_EM_T r 0); assumption). assert (X : vscale (s_r s) (s_pole s) = vscale (- s_r s) (s_pole s)) by (rewrite <- (vadd_sub (s_p0 s) (vscale (s_r s) (s_pole s))), E, vadd_sub; reflexivity).
  destruct (s_pole s) as [x y z]. unfold vscale in X. cbn [v0 v1 v2] in X. injection X as X0 X1 X2. assert (D : forall a, s_r s * a = - s_r s * a -> a = 0) by (intros a Q; apply Rmult_eq_reg_l with (s_r s); [lra|exact R0]). apply D in X0, X1, X2. subst. unfold vdot in U. cbn [v0 v1 v2] in U. lra.
Qed.
Print Assumptions C54_reversed_refuted.
(** A pole is added only where the seeds leave it out. *)
Lemma no_pole0 s : fst (skipped_poles s) = false -> Forall (Forall (fun x => x <> Pole0)) (layout s).
Proof.
  intros H. unfold layout. replace (mesh_of s _ Pole0 Pole1) with (mesh_of s (map (fun u => map (fun v => Seed (u * snd (uv_shape s) + v)) (seq 0 (snd (uv_shape s)))) (seq 0 (fst (uv_shape s)))) Pole1 Pole1) by (unfold mesh_of, add0; rewrite H; reflexivity).
  apply mesh_forall; [discriminate..|]. apply Forall_forall. intros r I. apply in_map_iff in I. destruct I as (u & <- & _). apply Forall_forall. intros x I. apply in_map_iff in I. destruct I as (v & <- & _). discriminate.
Qed.
Lemma no_pole1 s : snd (skipped_poles s) = false -> Forall (Forall (fun x => x <> Pole1)) (layout s).
Proof.
  intros H. unfold layout. replace (mesh_of s _ Pole0 Pole1) with (mesh_of s (map (fun u => map (fun v => Seed (u * snd (uv_shape s) + v)) (seq 0 (snd (uv_shape s)))) (seq 0 (fst (uv_shape s)))) Pole0 Pole0) by (unfold mesh_of, add1; rewrite H; reflexivity).
  apply mesh_forall; [discriminate..|]. apply Forall_forall. intros r I. apply in_map_iff in I. destruct I as (u & <- & _). apply Forall_forall. intros x I. apply in_map_iff in I. destruct I as (v & <- & _). discriminate.
Qed.
Theorem C54_no_repeat : forall s row, fst (s_theta s) < snd (s_theta s) -> In row (layout s) ->
  (In Pole0 row -> ~ In (fst (s_theta s)) (theta_axis s)) /\ (In Pole1 row -> ~ In (snd (s_theta s)) (theta_axis s)).
Proof.
  intros s row L Ir. assert (Fr : forall P, Forall (Forall P) (layout s) -> forall x, In x row -> P x) by (intros P F x; rewrite Forall_forall in F; specialize (F _ Ir); rewrite Forall_forall in F; apply F).
  assert (Ax : forall t, In t (theta_axis s) -> exists i, (i < s_ntheta s)%nat /\ t = fst (s_theta s) + (INR i + offset (theta_endpoints s)) / intervals (s_ntheta s) (theta_endpoints s) * (snd (s_theta s) - fst (s_theta s)) /\ 0 <= INR i /\ INR i + 1 <= INR (s_ntheta s)).
  { intros t I. rewrite theta_axis_eq in I. apply in_map_iff in I. destruct I as (i & <- & Hi). apply in_seq in Hi. exists i. split; [lia|]. split; [unfold Rdiv; ring|]. split; [apply pos_INR|]. rewrite <- S_INR. apply le_INR. lia. }
  split; intros Ip It; apply Ax in It; destruct It as (i & Hi & E & Pi & Pn); set (d := snd (s_theta s) - fst (s_theta s)) in *.
  - destruct (fst (skipped_poles s)) eqn:K; [|apply (Fr _ (no_pole0 s K)) in Ip; congruence]. unfold skipped_poles in K. cbn [fst] in K. apply andb_true_iff in K. destruct K as (_ & K). apply negb_true_iff in K. destruct (theta_endpoints s) as (lo, hi). cbn [fst] in K. subst lo. unfold intervals in E. cbn [fst andb] in E.
    assert (0 < (INR i + offset (false, hi)) / INR (s_ntheta s)) by (apply Rdiv_lt_0_compat; [destruct hi; cbn [offset]; lra|lra]). assert (0 < (INR i + offset (false, hi)) / INR (s_ntheta s) * d) by (apply Rmult_lt_0_compat; [assumption|unfold d; lra]). lra.
  - destruct (snd (skipped_poles s)) eqn:K; [|apply (Fr _ (no_pole1 s K)) in Ip; congruence]. unfold skipped_poles in K. cbn [snd] in K. apply andb_true_iff in K. destruct K as (_ & K). apply negb_true_iff in K. destruct (theta_endpoints s) as (lo, hi). cbn [snd] in K. subst hi. unfold intervals in E. cbn [fst snd] in E. rewrite andb_false_r in E.
    assert (Q : (INR i + offset (lo, false)) / INR (s_ntheta s) < 1) by (apply Rmult_lt_reg_r with (INR (s_ntheta s)); [lra|]; unfold Rdiv; rewrite Rmult_assoc, Rinv_l by lra; destruct lo; cbn [offset]; lra). assert ((INR i + offset (lo, false)) / INR (s_ntheta s) * d < 1 * d) by (apply Rmult_lt_compat_r; [unfold d; lra|exact Q]). unfold d in *. lra.
Qed.
Print Assumptions C54_no_repeat.
(* a whole sphere of 3 x 4 seeds: both poles and the seam are added *)
Definition s_ex : sphere := SPHERE (VEC 0 0 0) 2 (VEC 0 0 1) 3 4 (0, PI) (0, 2 * PI) AutoEnds AutoEnd true 0 false.
Lemma close_self x : isclose x x = true.
Proof. unfold isclose. destruct (Rle_dec _ _) as [|N]; [reflexivity|]. exfalso. apply N. rewrite Rminus_eq_0, Rabs_R0. pose proof (Rabs_pos x). cbn [pow]. lra. Qed.
Example C54_ex : skipped_poles s_ex = (true, true) /\ layout s_ex =
  [[Pole0; Pole0; Pole0; Pole0; Pole0]; [Seed 0; Seed 1; Seed 2; Seed 3; Seed 0]; [Seed 4; Seed 5; Seed 6; Seed 7; Seed 4]; [Seed 8; Seed 9; Seed 10; Seed 11; Seed 8]; [Pole1; Pole1; Pole1; Pole1; Pole1]].
Proof.
  assert (A : at_pole 0 = true) by (unfold at_pole; rewrite close_self; reflexivity). assert (B : at_pole PI = true) by (unfold at_pole; rewrite close_self; apply orb_true_r).
  assert (S : spans_phi s_ex = true) by (unfold spans_phi; cbn [s_ex s_phi fst snd]; rewrite Rminus_0_r; apply close_self).
  assert (K : skipped_poles s_ex = (true, true)) by (unfold skipped_poles, theta_endpoints; cbn [s_ex s_theta s_tend s_cap fst snd]; rewrite A, B; reflexivity). split; [exact K|].
  unfold layout, mesh_of, flip, seam, add1, add0. rewrite K, S. unfold phi_endpoint. rewrite S. reflexivity.
Qed.
