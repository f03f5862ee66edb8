(** C25: integrals along lines are the per-line trapezoid sums; and derivatives at a point
    (C48). *)
From Verif Require Import LineIntModel.
From Coq Require Import Lia Lra ZifyNat ZifyBool.
Open Scope R_scope.

(** ** specification *)
Definition distance (p q : vec) : R := sqrt ((v0 q - v0 p) * (v0 q - v0 p) + (v1 q - v1 p) * (v1 q - v1 p) + (v2 q - v2 p) * (v2 q - v2 p)).
Definition inner (a b : vec) : R := v0 a * v0 b + v1 a * v1 b + v2 a * v2 b.
(** sum over consecutive points *)
Fixpoint over_pairs (g : vec -> vec -> R) (line : list vec) : R :=
  match line with
  | p :: (q :: _) as r => g p q + over_pairs g r
  | _ => 0
  end.
(** trapezoid rule for a scalar, for the magnitude and for the tangential component *)
Definition trapezoid (f : vec -> R) : list vec -> R := over_pairs (fun p q => (f p + f q) / 2 * distance p q).
Definition trapezoid_mag (F : vec -> vec) : list vec -> R := trapezoid (fun p => sqrt (inner (F p) (F p))).
Definition trapezoid_dot (F : vec -> vec) : list vec -> R :=
  over_pairs (fun p q => (v0 (F p) + v0 (F q)) / 2 * (v0 q - v0 p) + (v1 (F p) + v1 (F q)) / 2 * (v1 q - v1 p) + (v2 (F p) + v2 (F q)) / 2 * (v2 q - v2 p)).
(** no two consecutive points are the same *)
Fixpoint moving (line : list vec) : Prop :=
  match line with
  | p :: (q :: _) as r => p <> q /\ moving r
  | _ => True
  end.

(** ** lists *)
Lemma picks_prog {A} (l : list A) : forall n a, (a + n <= length l)%nat -> picks l (prog (Z.of_nat a) 1 n) = firstn n (skipn a l).
Proof.
  induction n as [|n IH]; intros a H; [reflexivity|]. rewrite prog_S. cbn [picks flat_map]. replace (Z.of_nat a + 1)%Z with (Z.of_nat (S a)) by lia.
  change (flat_map (pick l) (prog (Z.of_nat (S a)) 1 n)) with (picks l (prog (Z.of_nat (S a)) 1 n)). rewrite IH by lia. unfold pick, zget. destruct (Z.ltb_spec (Z.of_nat a) 0); [lia|]. rewrite Nat2Z.id.
  destruct (nth_error l a) as [x|] eqn:E; [|apply nth_error_None in E; lia].
  assert (S : skipn a l = x :: skipn (S a) l).
  { clear - E. revert l E. induction a as [|a IH]; intros [|y l] E; try discriminate; [injection E as ->; reflexivity|]. cbn [skipn]. rewrite (IH l E). reflexivity. }
  rewrite S. reflexivity.
Qed.
Lemma sel1 L i j : (0 <= L)%Z -> sel L (PS i j None) = Some (prog (slice_start L (PS i j None)) 1 (Z.to_nat (slice_stop L (PS i j None) - slice_start L (PS i j None)))).
Proof.
  intros HL. unfold sel. change (step_of (PS i j None)) with 1%Z. change (1 =? 0)%Z with false. cbv iota. f_equal. unfold prange, range_len. change (step_of (PS i j None)) with 1%Z.
  change (0 <? 1)%Z with true. cbv iota. rewrite Z.div_1_r. f_equal. destruct (Z.ltb_spec (slice_start L (PS i j None)) (slice_stop L (PS i j None))); lia.
Qed.
Lemma slice_firstn {A} (l : list A) (a b : nat) : (a <= b)%nat -> (b <= length l)%nat -> slice l (Z.of_nat a) (Z.of_nat b) = firstn (b - a) (skipn a l).
Proof.
  intros Hab Hb. unfold slice, getslice. rewrite sel1 by lia.
  assert (E1 : slice_start (Z.of_nat (length l)) (PS (Some (Z.of_nat a)) (Some (Z.of_nat b)) None) = Z.of_nat a).
  { unfold slice_start, adj, step_of. cbn [p_step p_start odef]. change (0 <? 1)%Z with true. cbv iota. destruct (Z.ltb_spec (Z.of_nat a) 0); lia. }
  assert (E2 : slice_stop (Z.of_nat (length l)) (PS (Some (Z.of_nat a)) (Some (Z.of_nat b)) None) = Z.of_nat b).
  { unfold slice_stop, adj, step_of. cbn [p_step p_stop odef]. change (0 <? 1)%Z with true. cbv iota. destruct (Z.ltb_spec (Z.of_nat b) 0); lia. }
  rewrite E1, E2. replace (Z.to_nat (Z.of_nat b - Z.of_nat a)) with (b - a)%nat by lia. apply picks_prog. lia.
Qed.
Lemma from1_tl {A} (l : list A) : from1 l = tl l.
Proof.
  unfold from1, getslice. rewrite sel1 by lia.
  unfold slice_start, slice_stop, adj, step_of. cbn [p_step p_start p_stop odef]. change (0 <? 1)%Z with true. change (1 <? 0)%Z with false. cbv iota.
  destruct l as [|x l]; [reflexivity|]. replace (Z.max 0 (Z.min (Z.of_nat (length (x :: l))) 1)) with (Z.of_nat 1) by (cbn [length]; lia).
  rewrite picks_prog by (cbn [length]; lia). cbn [skipn tl]. replace (Z.to_nat (Z.of_nat (length (x :: l)) - Z.of_nat 1)) with (length l) by (cbn [length]; lia). apply firstn_all.
Qed.
Lemma removelast_firstn {A} (l : list A) : removelast l = firstn (length l - 1) l.
Proof. rewrite removelast_firstn_len. f_equal. lia. Qed.
Lemma upto1_removelast {A} (l : list A) : upto1 l = removelast l.
Proof.
  unfold upto1, getslice. rewrite sel1 by lia.
  unfold slice_start, slice_stop, adj, step_of. cbn [p_step p_start p_stop odef]. change (0 <? 1)%Z with true. change (-1 <? 0)%Z with true. cbv iota.
  change 0%Z with (Z.of_nat 0) at 1. rewrite picks_prog by lia. cbn [skipn]. rewrite removelast_firstn. f_equal. lia.
Qed.
Lemma length_removelast {A} (l : list A) : length (removelast l) = (length l - 1)%nat.
Proof. rewrite removelast_firstn, firstn_length. lia. Qed.
Lemma length_tl {A} (l : list A) : length (tl l) = (length l - 1)%nat.
Proof. destruct l; cbn; lia. Qed.
Lemma removelast_map {A B} (f : A -> B) (l : list A) : removelast (map f l) = map f (removelast l).
Proof. rewrite !removelast_firstn, map_length. apply firstn_map. Qed.
Lemma tl_map {A B} (f : A -> B) (l : list A) : tl (map f l) = map f (tl l).
Proof. destruct l; reflexivity. Qed.
Lemma bcast_eq {A B C} (o : A -> B -> C) a b : length a = length b -> bcast o a b = Some (map (fun p => o (fst p) (snd p)) (combine a b)).
Proof. intros H. unfold bcast. rewrite H, Nat.eqb_refl. reflexivity. Qed.

(** consecutive points *)
Definition pairs (l : list vec) : list (vec * vec) := combine (removelast l) (tl l).
Lemma pairs_cons p q r : pairs (p :: q :: r) = (p, q) :: pairs (q :: r).
Proof. reflexivity. Qed.
Lemma combine_map_fst {A B C D} (f : A -> C) (g : B -> D) : forall (a : list A) (b : list B), combine (map f a) (map g b) = map (fun p => (f (fst p), g (snd p))) (combine a b).
Proof. induction a as [|x a IH]; intros [|y b]; cbn; [reflexivity..|]. rewrite IH. reflexivity. Qed.
Lemma combine_swap {A B} : forall (a : list A) (b : list B), combine b a = map (fun p => (snd p, fst p)) (combine a b).
Proof. induction a as [|x a IH]; intros [|y b]; cbn; [reflexivity..|]. rewrite IH. reflexivity. Qed.
Lemma segments_pairs line : segments line = Some (map (fun p => vsub (snd p) (fst p)) (pairs line)).
Proof.
  unfold segments. rewrite from1_tl, upto1_removelast. rewrite bcast_eq by (rewrite length_tl, length_removelast; reflexivity).
  unfold pairs. rewrite combine_swap, map_map. reflexivity.
Qed.
(* slices of the values at the vertices of one line *)
Lemma slices_of_line {B} (f : vec -> B) pre line post : (1 <= length line)%nat ->
  let all := map f (pre ++ line ++ post) in let start := Z.of_nat (length pre) in let stop := (start + Z.of_nat (length line))%Z in
  slice all start (stop - 1) = map f (removelast line) /\ slice all (start + 1) stop = map f (tl line) /\ slice all start stop = map f line.
Proof.
  intros H. cbv zeta. set (a := length pre). replace (Z.of_nat a + Z.of_nat (length line) - 1)%Z with (Z.of_nat (a + length line - 1)) by lia.
  replace (Z.of_nat a + Z.of_nat (length line))%Z with (Z.of_nat (a + length line)) by lia. replace (Z.of_nat a + 1)%Z with (Z.of_nat (a + 1)) by lia.
  assert (L : (a + length line <= length (map f (pre ++ line ++ post)))%nat) by (rewrite map_length, !app_length; subst a; lia).
  rewrite !slice_firstn by lia.
  assert (Sk : skipn a (map f (pre ++ line ++ post)) = map f line ++ map f post).
  { subst a. rewrite !map_app. rewrite <- (map_length f pre). rewrite skipn_app, skipn_all, Nat.sub_diag. reflexivity. }
  assert (Sk1 : skipn (a + 1) (map f (pre ++ line ++ post)) = tl (map f line) ++ map f post).
  { replace (a + 1)%nat with (S a) by lia. assert (T : forall (l : list B) n, skipn (S n) l = tl (skipn n l)) by (induction l as [|x l IH]; intros [|n]; cbn; try reflexivity; rewrite <- IH; reflexivity).
    rewrite T, Sk. destruct line as [|p line]; [cbn in H; lia|]. reflexivity. }
  rewrite Sk, Sk1. split; [|split].
  - rewrite <- removelast_map, removelast_firstn, map_length. replace (a + length line - 1 - a)%nat with (length line - 1)%nat by lia.
    rewrite firstn_app, map_length. replace (length line - 1 - length line)%nat with 0%nat by lia. rewrite firstn_O, app_nil_r. reflexivity.
  - rewrite <- tl_map. replace (a + length line - (a + 1))%nat with (length (tl (map f line))) by (rewrite length_tl, map_length; lia).
    rewrite firstn_app, firstn_all, Nat.sub_diag, firstn_O, app_nil_r. reflexivity.
  - replace (a + length line - a)%nat with (length (map f line)) by (rewrite map_length; lia). rewrite firstn_app, firstn_all, Nat.sub_diag, firstn_O, app_nil_r. reflexivity.
Qed.

Lemma nsum_pairs (h : vec * vec -> option R) (g : vec -> vec -> R) : forall line,
  (forall p q, In (p, q) (pairs line) -> h (p, q) = Some (g p q)) -> nsum (map h (pairs line)) = Some (over_pairs g line).
Proof.
  intros line. induction line as [|p [|q r] IH]; intros H; [reflexivity..|]. rewrite pairs_cons in *. cbn [map nsum]. rewrite (H p q) by (left; reflexivity).
  rewrite IH by (intros; apply H; right; assumption). reflexivity.
Qed.
Lemma norm_distance p q : norm (vsub q p) = distance p q.
Proof. reflexivity. Qed.

(** ** the body of the loop *)
Lemma combine_pairs {B C} (f : vec -> B) (g : vec -> C) line : combine (map f (removelast line)) (map g (tl line)) = map (fun p => (f (fst p), g (snd p))) (pairs line).
Proof. unfold pairs. apply combine_map_fst. Qed.
Lemma combine_same {A B C} (f : A -> B) (g : A -> C) (l : list A) : combine (map f l) (map g l) = map (fun x => (f x, g x)) l.
Proof. induction l; cbn; congruence. Qed.

Lemma scalar_line f pre line post : (1 <= length line)%nat ->
  one_line (Scalars (map f (pre ++ line ++ post))) Dot line (Z.of_nat (length pre)) (Z.of_nat (length pre) + Z.of_nat (length line)) = Some (Some (trapezoid f line)) /\
  one_line (Scalars (map f (pre ++ line ++ post))) Mag line (Z.of_nat (length pre)) (Z.of_nat (length pre) + Z.of_nat (length line)) = Some (Some (trapezoid f line)) /\
  one_line (Scalars (map f (pre ++ line ++ post))) Other line (Z.of_nat (length pre)) (Z.of_nat (length pre) + Z.of_nat (length line)) = Some (Some (trapezoid f line)).
Proof.
  intros H. destruct (slices_of_line f pre line post H) as (S1 & S2 & _). unfold one_line. rewrite segments_pairs, S1, S2.
  rewrite bcast_eq by (rewrite !map_length, length_removelast, length_tl; reflexivity). rewrite combine_pairs, map_map. cbn [option_map].
  rewrite bcast_eq by (rewrite !map_length; reflexivity). rewrite !map_map. rewrite combine_same, map_map. cbn [option_map fst snd].
  assert (K : nsum (map (fun x => Some (1 / 2 * (f (fst x) + f (snd x)) * norm (vsub (snd x) (fst x)))) (pairs line)) = Some (trapezoid f line)).
  { unfold trapezoid. apply nsum_pairs. intros p q _. cbn [fst snd]. rewrite norm_distance. f_equal. lra. }
  split; [|split]; f_equal; exact K.
Qed.

Lemma mag_line f line post : (1 <= length line)%nat ->
  one_line (Vectors (map f (line ++ post))) Mag line 0 (0 + Z.of_nat (length line)) = Some (Some (trapezoid_mag f line)).
Proof.
  intros H. destruct (slices_of_line f [] line post H) as (_ & _ & S3). cbn [app length] in S3. change (Z.of_nat 0) with 0%Z in S3.
  unfold one_line. rewrite segments_pairs, S3, map_map.
  destruct (slices_of_line (fun p => norm (f p)) [] line [] H) as (S1 & S2 & _). cbn [app length] in S1, S2. rewrite app_nil_r in S1, S2. change (Z.of_nat 0) with 0%Z in S1, S2. rewrite S1, S2.
  rewrite bcast_eq by (rewrite !map_length, length_removelast, length_tl; reflexivity). rewrite combine_pairs, map_map. cbn [option_map].
  rewrite bcast_eq by (rewrite !map_length; reflexivity). rewrite !map_map, combine_same, map_map. cbn [option_map fst snd]. f_equal.
  unfold trapezoid_mag, trapezoid. apply nsum_pairs. intros p q _. cbn [fst snd]. rewrite norm_distance. f_equal. unfold norm, inner. lra.
Qed.

Lemma norm_zero d : norm d = 0 -> v0 d = 0 /\ v1 d = 0 /\ v2 d = 0.
Proof.
  intros H. unfold norm in H. set (x := v0 d) in *. set (y := v1 d) in *. set (z := v2 d) in *.
  pose proof (Rle_0_sqr x) as X. pose proof (Rle_0_sqr y) as Y. pose proof (Rle_0_sqr z) as Z0. unfold Rsqr in *.
  apply sqrt_eq_0 in H; [|lra]. assert (x * x = 0) by lra. assert (y * y = 0) by lra. assert (z * z = 0) by lra.
  repeat split; apply Rsqr_0_uniq; unfold Rsqr; assumption.
Qed.
Lemma moving_pairs line : moving line -> forall p q, In (p, q) (pairs line) -> p <> q.
Proof.
  induction line as [|a [|b r] IH]; intros Hm p q Hi; [destruct Hi..|]. rewrite pairs_cons in Hi. destruct Hm as (H1 & H2). destruct Hi as [E|Hi]; [injection E as <- <-; exact H1|]. apply IH; assumption.
Qed.
Lemma dot_line f pre line post : (1 <= length line)%nat -> moving line ->
  one_line (Vectors (map f (pre ++ line ++ post))) Dot line (Z.of_nat (length pre)) (Z.of_nat (length pre) + Z.of_nat (length line)) = Some (Some (trapezoid_dot f line)).
Proof.
  intros H Hm. destruct (slices_of_line f pre line post H) as (S1 & S2 & _). unfold one_line. rewrite segments_pairs, S1, S2.
  rewrite bcast_eq by (rewrite !map_length, length_removelast, length_tl; reflexivity). rewrite combine_pairs, map_map.
  rewrite bcast_eq by (rewrite !map_length; reflexivity). rewrite !map_map, combine_same, map_map. cbn [option_map fst snd].
  rewrite bcast_eq by (rewrite !map_length; reflexivity). rewrite combine_same, map_map. cbn [option_map fst snd]. f_equal.
  unfold trapezoid_dot. apply nsum_pairs. intros p q Hi. cbn [fst snd]. pose proof (moving_pairs line Hm p q Hi) as Hne. unfold unit.
  destruct (Req_EM_T (norm (vsub q p)) 0) as [E|E].
  - exfalso. apply Hne. apply norm_zero in E. destruct E as (E0 & E1 & E2). cbn [vsub v0 v1 v2] in E0, E1, E2. destruct p as [p0 p1 p2], q as [q0 q1 q2]. cbn in *. f_equal; lra.
  - set (n := norm (vsub q p)) in *. clearbody n. cbn [option_map]. f_equal. unfold vsum, vmul, vscale, vadd, vsub. cbn [v0 v1 v2]. field. exact E.
Qed.

(** ** theorems *)
Lemma loop_lines (fld : on_verts) red lines (g : list vec -> R) : forall pre all,
  all = pre ++ concat lines ->
  (forall pre' line post, all = pre' ++ line ++ post -> In line lines ->
     one_line fld red line (Z.of_nat (length pre')) (Z.of_nat (length pre') + Z.of_nat (length line)) = Some (Some (g line))) ->
  loop fld red lines (Z.of_nat (length pre)) = Some (map (fun l => Some (g l)) lines).
Proof.
  induction lines as [|line r IH]; intros pre all E H; [reflexivity|]. cbn [loop]. cbn [concat] in E.
  rewrite (H pre line (concat r) E) by (left; reflexivity). replace (Z.of_nat (length pre) + Z.of_nat (length line))%Z with (Z.of_nat (length (pre ++ line))) by (rewrite app_length; lia).
  rewrite (IH (pre ++ line) all); [reflexivity|rewrite <- app_assoc; exact E|]. intros. apply (H pre' line0 post); [assumption|right; assumption].
Qed.
Definition nonempty (lines : list (list vec)) : Prop := lines <> [] /\ Forall (fun l => l <> []) lines.
Lemma nonempty_len lines : nonempty lines -> forall l, In l lines -> (1 <= length l)%nat.
Proof. intros (_ & F) l Hl. rewrite Forall_forall in F. specialize (F l Hl). destruct l; [contradiction|cbn; lia]. Qed.

(** Scalar fields: each line gets its own trapezoid sum, whatever the other lines are. *)
Theorem C25_scalar : forall lines f red, nonempty lines ->
  integrate_along_lines lines (ScalarFn f) red = Some (map (fun l => Some (trapezoid f l)) lines).
Proof.
  intros lines f red Hn. unfold integrate_along_lines. destruct lines as [|l0 r] eqn:E; [destruct Hn; contradiction|]. rewrite <- E in *. clear E.
  apply (loop_lines _ red lines (trapezoid f) [] (concat lines)); [reflexivity|]. intros pre line post Ea Hi. cbn [interp]. rewrite Ea.
  destruct (scalar_line f pre line post (nonempty_len lines Hn line Hi)) as (A & B & C). destruct red; assumption.
Qed.
Print Assumptions C25_scalar.
(** Vector fields dotted with the line, if no point is repeated. *)
Theorem C25_dot : forall lines F, nonempty lines -> Forall moving lines ->
  integrate_along_lines lines (VectorFn F) Dot = Some (map (fun l => Some (trapezoid_dot F l)) lines).
Proof.
  intros lines f Hn Hm. unfold integrate_along_lines. destruct lines as [|l0 r] eqn:E; [destruct Hn; contradiction|]. rewrite <- E in *. clear E.
  apply (loop_lines _ Dot lines (trapezoid_dot f) [] (concat lines)); [reflexivity|]. intros pre line post Ea Hi. cbn [interp]. rewrite Ea.
  apply dot_line; [apply (nonempty_len lines Hn line Hi)|]. rewrite Forall_forall in Hm. apply Hm. exact Hi.
Qed.
Print Assumptions C25_dot.
(** The magnitude along one line. *)
Theorem C25_mag_one_line : forall line F, line <> [] ->
  integrate_along_lines [line] (VectorFn F) Mag = Some [Some (trapezoid_mag F line)].
Proof.
  intros line F H. unfold integrate_along_lines. cbn [loop concat interp]. rewrite (mag_line F line []); [reflexivity|]. destruct line; [contradiction|cbn; lia].
Qed.
Print Assumptions C25_mag_one_line.

(** Splitting a line at a point splits the integral. *)
Lemma over_pairs_split g p l2 : forall l1, over_pairs g (l1 ++ p :: l2) = over_pairs g (l1 ++ [p]) + over_pairs g (p :: l2).
Proof.
  induction l1 as [|a [|b r] IH]; [cbn [app over_pairs]; lra|destruct l2; cbn [app over_pairs]; lra|].
  change ((a :: b :: r) ++ p :: l2) with (a :: b :: (r ++ p :: l2)). change ((a :: b :: r) ++ [p]) with (a :: b :: (r ++ [p])).
  change (over_pairs g (a :: b :: (r ++ p :: l2))) with (g a b + over_pairs g ((b :: r) ++ p :: l2)). change (over_pairs g (a :: b :: (r ++ [p]))) with (g a b + over_pairs g ((b :: r) ++ [p])). rewrite IH. lra.
Qed.
Theorem C25_additive : forall l1 p l2 f F,
  trapezoid f (l1 ++ p :: l2) = trapezoid f (l1 ++ [p]) + trapezoid f (p :: l2) /\
  trapezoid_dot F (l1 ++ p :: l2) = trapezoid_dot F (l1 ++ [p]) + trapezoid_dot F (p :: l2).
Proof. intros. split; apply over_pairs_split. Qed.
Print Assumptions C25_additive.

(** Refuted: the magnitude along several lines raises if the second line has at least three
    points and no more than the first, and is 0 for a second line of two points. *)
Lemma slice_beyond {A} (l : list A) i j : (Z.of_nat (length l) <= i)%Z -> slice l i j = [].
Proof.
  intros H. unfold slice, getslice. rewrite sel1 by lia.
  replace (Z.to_nat _) with 0%nat; [reflexivity|]. unfold slice_start, slice_stop, adj, step_of. cbn [p_step p_start p_stop odef]. change (0 <? 1)%Z with true. cbv iota.
  destruct (Z.ltb_spec i 0), (Z.ltb_spec j 0); lia.
Qed.
Lemma second_mag l1 l2 F : (1 <= length l1)%nat -> (2 <= length l2 <= length l1)%nat ->
  one_line (Vectors (map F (l1 ++ l2 ++ []))) Mag l2 (Z.of_nat (length l1)) (Z.of_nat (length l1) + Z.of_nat (length l2)) =
  if (length l2 =? 2)%nat then Some (Some 0) else None.
Proof.
  intros H1 H2. destruct (slices_of_line F l1 l2 [] ltac:(lia)) as (_ & _ & S3). unfold one_line. rewrite segments_pairs, S3, map_map.
  rewrite !slice_beyond by (rewrite map_length; lia). cbn [bcast length Nat.eqb combine map option_map].
  assert (Lp : length (map norm (map (fun p => vsub (snd p) (fst p)) (pairs l2))) = (length l2 - 1)%nat).
  { rewrite !map_length. unfold pairs. rewrite combine_length, length_removelast, length_tl. lia. }
  unfold bcast. rewrite Lp. cbn [length]. destruct (length l2) as [|[|[|k]]] eqn:E; try lia; cbn [Nat.eqb Nat.sub].
  - destruct (map norm _) as [|y [|? ?]]; try (cbn in Lp; lia). reflexivity.
  - destruct (map norm _) as [|y [|? ?]]; try (cbn in Lp; lia). reflexivity.
Qed.
Theorem C25_mag_lines_refuted : forall l1 l2 F, (2 <= length l2 <= length l1)%nat ->
  integrate_along_lines [l1; l2] (VectorFn F) Mag =
    if (length l2 =? 2)%nat then Some [Some (trapezoid_mag F l1); Some 0] else None.
Proof.
  intros l1 l2 F H. unfold integrate_along_lines. cbn [loop concat interp]. rewrite (mag_line F l1 (l2 ++ [])) by lia.
  rewrite Z.add_0_l. rewrite second_mag by lia. destruct (length l2 =? 2)%nat; reflexivity.
Qed.
Print Assumptions C25_mag_lines_refuted.
(** Refuted: a repeated point makes the tangential integral nan. *)
Theorem C25_repeated_point_refuted : forall p l F, integrate_along_lines [p :: p :: l] (VectorFn F) Dot = Some [None].
Proof.
  intros p l F. unfold integrate_along_lines. cbn [loop concat interp]. set (line := p :: p :: l). rewrite app_nil_r.
  destruct (slices_of_line F [] line [] ltac:(cbn; lia)) as (S1 & S2 & _). cbn [app length] in S1, S2. rewrite app_nil_r in S1, S2. unfold one_line. rewrite segments_pairs.
  change 0%Z with (Z.of_nat 0). rewrite S1, S2.
  rewrite bcast_eq by (rewrite !map_length, length_removelast, length_tl; reflexivity). rewrite combine_pairs, map_map.
  rewrite bcast_eq by (rewrite !map_length; reflexivity). rewrite !map_map, combine_same, map_map. cbn [option_map fst snd].
  rewrite bcast_eq by (rewrite !map_length; reflexivity). rewrite combine_same, map_map. cbn [option_map fst snd].
  unfold line at 1. rewrite pairs_cons. cbn [map nsum fst snd]. assert (E : unit (vsub p p) = None).
  { unfold unit. destruct (Req_EM_T (norm (vsub p p)) 0) as [E|E]; [reflexivity|]. exfalso. apply E. unfold norm, vsub. cbn [v0 v1 v2]. replace (_ + _) with 0 by ring. apply sqrt_0. }
  rewrite E. reflexivity.
Qed.
Print Assumptions C25_repeated_point_refuted.
(** no lines: ValueError *)
Theorem C25_no_lines_refuted : forall f red, integrate_along_lines [] f red = None.
Proof. reflexivity. Qed.

(** ** C48: derivatives at a point *)
(** [B] is linear near the point: B_c(x) = m_c0 x + m_c1 y + m_c2 z + b_c *)
Definition linear_fn (B : vec -> vec) (m : nat -> nat -> R) (b : nat -> R) : Prop :=
  forall c p, (c < 3)%nat -> comp c (B p) = m c 0%nat * v0 p + m c 1%nat * v1 p + m c 2%nat * v2 p + b c.
Lemma dq_linear B m b p d k c : linear_fn B m b -> (k < 3)%nat -> (c < 3)%nat -> comp k d <> 0 -> dq B p d k c k = m c k.
Proof.
  intros HB Hk Hc Hd. unfold dq, As. rewrite !HB by exact Hc. destruct k as [|[|[|k]]]; [| | |lia]; cbn [shift comp v0 v1 v2] in *; field; exact Hd.
Qed.
Theorem C48_jacobian : forall B m b p d i k, linear_fn B m b -> (i < 3)%nat -> (k < 3)%nat -> comp k d <> 0 -> jacobian_at_point B p d i k = m i k.
Proof. intros. unfold jacobian_at_point. eapply dq_linear; eassumption. Qed.
Print Assumptions C48_jacobian.
Theorem C48_div : forall B m b p d, linear_fn B m b -> (forall k, (k < 3)%nat -> comp k d <> 0) ->
  div_at_point B p d = m 0%nat 0%nat + m 1%nat 1%nat + m 2%nat 2%nat.
Proof.
  intros B m b p d HB Hd. unfold div_at_point. rewrite (dq_linear B m b p d 0 0), (dq_linear B m b p d 1 1), (dq_linear B m b p d 2 2) by (auto; lia). lra.
Qed.
Print Assumptions C48_div.
(** Refuted for the curl: with equal distances it is
    (d_y B_z - d_x B_y, d_x B_x - d_z B_z, d_z B_y - d_y B_x). *)
Theorem C48_curl_refuted : forall B m b p e, linear_fn B m b -> e <> 0 ->
  curl_at_point B p (VEC e e e) = VEC (m 2%nat 1%nat - m 1%nat 0%nat) (m 0%nat 0%nat - m 2%nat 2%nat) (m 1%nat 2%nat - m 0%nat 1%nat).
Proof.
  intros B m b p e HB He. unfold curl_at_point.
  assert (K : forall k c kd, (k < 3)%nat -> (c < 3)%nat -> (kd < 3)%nat -> dq B p (VEC e e e) k c kd = m c k).
  { intros k c kd Hk Hc Hkd. assert (E : comp kd (VEC e e e) = comp k (VEC e e e)) by (destruct kd as [|[|kd]], k as [|[|k]]; reflexivity).
    unfold dq. rewrite E. apply (dq_linear B m b p (VEC e e e) k c HB Hk Hc). destruct k as [|[|k]]; exact He. }
  rewrite !K by lia. reflexivity.
Qed.
Print Assumptions C48_curl_refuted.
(** For instance the rotation B = (-y, x, 0), whose curl is (0, 0, 2), gets (-1, 0, 1). *)
Theorem C48_curl_of_rotation_refuted : curl_at_point (fun p => VEC (- v1 p) (v0 p) 0) (VEC 0 0 0) (VEC 1 1 1) = VEC (-1) 0 1.
Proof.
  rewrite (C48_curl_refuted _ (fun c k => match c, k with 0%nat, 1%nat => -1 | 1%nat, 0%nat => 1 | _, _ => 0 end) (fun _ => 0)); [|intros [|[|[|c]]] p Hc; cbn; try lia; lra|lra].
  f_equal; lra.
Qed.
Print Assumptions C48_curl_of_rotation_refuted.

(** ** C49: the projection of a vector field onto a line *)
Definition central (line : list vec) (k : nat) : vec := vsub (nth (k + 2) line (VEC 0 0 0)) (nth k line (VEC 0 0 0)).
Definition centrals (line : list vec) : list vec := map (central line) (seq 0 (length line - 2)).
Lemma nth_combine2 {A B C} (o : A -> B -> C) (a : list A) (b : list B) da db : length a = length b -> map (fun p => o (fst p) (snd p)) (combine a b) = map (fun k => o (nth k a da) (nth k b db)) (seq 0 (length a)).
Proof.
  revert b. induction a as [|x a IH]; intros [|y b] H; try discriminate; [reflexivity|]. cbn [combine map length seq nth fst snd]. f_equal. rewrite <- seq_shift, map_map. apply IH. cbn in H. lia.
Qed.
Lemma nth_skipn {A} (l : list A) d : forall n k, nth k (skipn n l) d = nth (n + k) l d.
Proof. induction l as [|x l IH]; intros [|n] k; try reflexivity; [destruct k; reflexivity|]. cbn [skipn Nat.add nth]. apply IH. Qed.
Lemma nth_firstn {A} (l : list A) d : forall n k, (k < n)%nat -> nth k (firstn n l) d = nth k l d.
Proof. induction l as [|x l IH]; intros [|n] [|k] H; try reflexivity; try lia. cbn [firstn nth]. apply IH. lia. Qed.
Lemma centrals_ok line : (2 <= length line)%nat ->
  bcast vsub (match getslice line (PS (Some 2%Z) None None) with Some y => y | None => [] end) (match getslice line (PS None (Some (-2)%Z) None) with Some y => y | None => [] end) = Some (centrals line).
Proof.
  intros H. unfold getslice. rewrite !sel1 by lia.
  unfold slice_start, slice_stop, adj, step_of. cbn [p_step p_start p_stop odef]. change (0 <? 1)%Z with true. change (-2 <? 0)%Z with true. change (2 <? 0)%Z with false. cbv iota.
  replace (Z.max 0 (Z.min (Z.of_nat (length line)) 2)) with (Z.of_nat 2) by lia. change 0%Z with (Z.of_nat 0) at 1. rewrite !picks_prog by lia.
  change (skipn 0 line) with line. rewrite firstn_all2 by (rewrite skipn_length; lia).
  replace (Z.to_nat _) with (length line - 2)%nat by lia.
  rewrite bcast_eq by (rewrite skipn_length, firstn_length; lia). f_equal. rewrite (nth_combine2 vsub _ _ (VEC 0 0 0) (VEC 0 0 0)) by (rewrite skipn_length, firstn_length; lia).
  rewrite skipn_length. apply map_ext_in. intros k Hk. apply in_seq in Hk. rewrite nth_skipn, nth_firstn by lia. unfold central. f_equal. f_equal. lia.
Qed.
Lemma length_centrals line : length (centrals line) = (length line - 2)%nat.
Proof. unfold centrals. rewrite map_length, seq_length. reflexivity. Qed.
Lemma slice_lastbutone {A} (l : list A) : slice l (-2) (-1) = match length l with 0%nat | 1%nat => [] | S (S n) => firstn 1 (skipn n l) end.
Proof.
  unfold slice, getslice. rewrite sel1 by lia. unfold slice_start, slice_stop, adj, step_of. cbn [p_step p_start p_stop odef]. change (0 <? 1)%Z with true. change (-2 <? 0)%Z with true. change (-1 <? 0)%Z with true. cbv iota.
  destruct (length l) as [|[|n]] eqn:E; [reflexivity..|].
  replace (Z.max 0 (Z.min (Z.of_nat (S (S n))) (-2 + Z.of_nat (S (S n))))) with (Z.of_nat n) by lia. replace (Z.to_nat _) with 1%nat by lia. apply picks_prog. lia.
Qed.
Lemma skipn_cons {A} (l : list A) d : forall n, (n < length l)%nat -> skipn n l = nth n l d :: skipn (S n) l.
Proof. induction l as [|x l IH]; intros [|n] H; cbn in H; try lia; [reflexivity|]. cbn [skipn nth]. apply IH. lia. Qed.
(* the directions used at the vertices *)
Definition directions (line : list vec) : list vec := central line 0 :: centrals line ++ [central line (length line - 4)].
Lemma project_directions line F : (4 <= length line)%nat ->
  project_along_line line F = Some (map (fun p => option_map (fun u => inner (F (fst p)) u) (unit (snd p))) (combine line (directions line))).
Proof.
  intros H. unfold project_along_line. rewrite centrals_ok by lia.
  assert (D : slice (centrals line) 0 1 ++ centrals line ++ slice (centrals line) (-2) (-1) = directions line).
  { change 0%Z with (Z.of_nat 0). change 1%Z with (Z.of_nat 1). rewrite slice_firstn by (rewrite ?length_centrals; lia). rewrite slice_lastbutone, length_centrals.
    destruct (length line - 2)%nat as [|[|n]] eqn:E; try lia.
    rewrite (skipn_cons (centrals line) (VEC 0 0 0) n) by (rewrite length_centrals; lia). cbn [firstn].
    assert (C : forall k, (k < length line - 2)%nat -> nth k (centrals line) (VEC 0 0 0) = central line k).
    { intros k Hk. unfold centrals. rewrite (nth_indep _ _ (central line 0)) by (rewrite map_length, seq_length; exact Hk). rewrite map_nth, seq_nth by exact Hk. reflexivity. }
    rewrite C by lia. unfold directions. replace (length line - 4)%nat with n by lia. cbn [Nat.sub]. rewrite (skipn_cons (centrals line) (VEC 0 0 0) 0) at 1 by (rewrite length_centrals; lia). cbn [firstn app]. rewrite C by lia. reflexivity. }
  rewrite D. rewrite bcast_eq by (unfold directions; rewrite !map_length; cbn [length]; rewrite app_length, length_centrals; cbn [length]; lia).
  rewrite combine_map_fst, map_map. reflexivity.
Qed.
Lemma nth_map_combine {A B C} (g : A * B -> C) a b i x y : nth_error a i = Some x -> nth_error b i = Some y -> nth_error (map g (combine a b)) i = Some (g (x, y)).
Proof.
  revert b i. induction a as [|a0 a IH]; intros [|b0 b] [|i] H1 H2; try discriminate; cbn in *; [congruence|]. apply IH; assumption.
Qed.
Lemma unit_inner p q v : p <> q -> option_map (fun u => inner v u) (unit (vsub q p)) = Some (inner v (vsub q p) / distance p q).
Proof.
  intros Hne. unfold unit. destruct (Req_EM_T (norm (vsub q p)) 0) as [E|E].
  - exfalso. apply Hne. apply norm_zero in E. destruct E as (E0 & E1 & E2). cbn [vsub v0 v1 v2] in E0, E1, E2. destruct p as [p0 p1 p2], q as [q0 q1 q2]. cbn in *. f_equal; lra.
  - rewrite <- norm_distance. set (n := norm (vsub q p)) in *. clearbody n. cbn [option_map]. f_equal. unfold inner, vscale. cbn [v0 v1 v2]. field. exact E.
Qed.
Lemma central_nth line k p q : nth_error line k = Some p -> nth_error line (k + 2) = Some q -> central line k = vsub q p.
Proof. intros H1 H2. unfold central. rewrite (nth_error_nth _ _ _ H1), (nth_error_nth _ _ _ H2). reflexivity. Qed.
(** Inside the line the tangent joins the two neighbours. *)
Theorem C49_inside : forall line F i p x q, (4 <= length line)%nat ->
  nth_error line i = Some p -> nth_error line (i + 1) = Some x -> nth_error line (i + 2) = Some q -> p <> q ->
  exists y, project_along_line line F = Some y /\ length y = length line /\ nth_error y (i + 1) = Some (Some (inner (F x) (vsub q p) / distance p q)).
Proof.
  intros line F i p x q H Hp Hx Hq Hne. eexists. split; [apply project_directions; exact H|]. split.
  - rewrite map_length, combine_length. unfold directions. cbn [length]. rewrite app_length, length_centrals. cbn [length]. lia.
  - assert (Hi : (i + 2 < length line)%nat) by (apply nth_error_Some; congruence).
    rewrite (nth_map_combine _ line (directions line) (i + 1) x (central line i) Hx).
    + cbn [fst snd]. rewrite (central_nth line i p q Hp Hq). rewrite unit_inner by exact Hne. reflexivity.
    + unfold directions. replace (i + 1)%nat with (S i) by lia. cbn [nth_error]. rewrite nth_error_app1 by (rewrite length_centrals; lia). unfold centrals.
      rewrite (map_nth_error (central line) i (seq 0 (length line - 2)) (d := i)); [reflexivity|]. rewrite (nth_error_nth' _ 0%nat) by (rewrite seq_length; lia). rewrite seq_nth by lia. reflexivity.
Qed.
Print Assumptions C49_inside.
(** At the first vertex it is the tangent of the second. *)
Theorem C49_first : forall p q r line F, (1 <= length line)%nat -> p <> r ->
  exists y, project_along_line (p :: q :: r :: line) F = Some (Some (inner (F p) (vsub r p) / distance p r) :: y).
Proof.
  intros p q r line F H Hne. rewrite project_directions by (cbn; lia). unfold directions. cbn [combine map fst snd]. unfold central at 1. cbn [nth Nat.add].
  rewrite unit_inner by exact Hne. eexists. reflexivity.
Qed.
(** Refuted at the last vertex: the tangent is that of the vertex two before, so the last segment
    of the line is not looked at. *)
Theorem C49_last_refuted : forall line F a b c d, (a <> c) ->
  exists y, project_along_line (line ++ [a; b; c; d]) F = Some (y ++ [Some (inner (F d) (vsub c a) / distance a c)]).
Proof.
  intros line F a b c d Hne. rewrite project_directions by (rewrite app_length; cbn; lia). set (l := line ++ [a; b; c; d]).
  assert (Ll : length l = (length line + 4)%nat) by (unfold l; rewrite app_length; reflexivity).
  assert (E1 : l = (line ++ [a; b; c]) ++ [d]) by (unfold l; rewrite <- app_assoc; reflexivity).
  assert (E2 : directions l = (central l 0 :: centrals l) ++ [central l (length l - 4)]) by reflexivity.
  assert (E3 : combine l (directions l) = combine (line ++ [a; b; c]) (central l 0 :: centrals l) ++ [(d, central l (length l - 4))]).
  { rewrite E2. rewrite E1 at 1. assert (K : length (line ++ [a; b; c]) = length (central l 0 :: centrals l)) by (cbn [length]; rewrite length_centrals, Ll, app_length; cbn [length]; lia).
    revert K. generalize (central l 0 :: centrals l) as u. generalize (central l (length l - 4)) as z. generalize (line ++ [a; b; c]) as t. clear. induction t as [|x t IH]; intros z [|y u] K; try discriminate; [reflexivity|].
    cbn [app combine]. rewrite IH by (cbn in K; lia). reflexivity. }
  rewrite E3, map_app. cbn [map fst snd]. eexists. do 2 f_equal. replace (length l - 4)%nat with (length line) by lia.
  assert (Ha : nth_error l (length line) = Some a) by (unfold l; rewrite nth_error_app2, Nat.sub_diag by lia; reflexivity).
  assert (Hc : nth_error l (length line + 2) = Some c) by (unfold l; rewrite nth_error_app2 by lia; replace (length line + 2 - length line)%nat with 2%nat by lia; reflexivity).
  rewrite (central_nth l _ a c Ha Hc), unit_inner by exact Hne. reflexivity.
Qed.
Print Assumptions C49_last_refuted.
(** Refuted: a line of three points raises. *)
Theorem C49_three_points_refuted : forall a b c F, project_along_line [a; b; c] F = None.
Proof. reflexivity. Qed.

(** ** non-trivial cases *)
Example C25_ex : let l1 := [VEC 0 0 0; VEC 3 4 0] in let l2 := [VEC 0 0 0; VEC 0 0 2; VEC 1 0 2] in
  nonempty [l1; l2] /\ Forall moving [l1; l2] /\ trapezoid v0 l1 = 15 / 2 /\ trapezoid_dot (fun p => p) l2 = 5 / 2.
Proof.
  cbv zeta. split; [split; [discriminate|repeat constructor; discriminate]|]. split.
  - constructor; [split; [intros E; injection E; lra|exact I]|]. constructor; [|constructor]. split; [intros E; injection E; lra|]. split; [intros E; injection E; lra|exact I].
  - split.
    + unfold trapezoid. cbn [over_pairs v0]. unfold distance. cbn [v0 v1 v2]. replace ((3 - 0) * (3 - 0) + (4 - 0) * (4 - 0) + (0 - 0) * (0 - 0)) with (5 * 5) by lra. rewrite sqrt_square by lra. lra.
    + unfold trapezoid_dot. cbn [over_pairs v0 v1 v2]. lra.
Qed.
Example C48_ex : linear_fn (fun p => VEC (v1 p) (2 * v0 p + 1) (v0 p - v2 p)) (fun c k => match c, k with 0%nat, 1%nat => 1 | 1%nat, 0%nat => 2 | 2%nat, 0%nat => 1 | 2%nat, 2%nat => -1 | _, _ => 0 end) (fun c => match c with 1%nat => 1 | _ => 0 end).
Proof. intros [|[|[|c]]] p Hc; cbn; try lia; lra. Qed.
Example C49_ex : exists y, project_along_line [VEC 0 0 0; VEC 1 0 0; VEC 3 4 0; VEC 3 5 0] (fun p => VEC 10 0 0) = Some y /\ nth_error y 1 = Some (Some 6).
Proof.
  destruct (C49_inside [VEC 0 0 0; VEC 1 0 0; VEC 3 4 0; VEC 3 5 0] (fun p => VEC 10 0 0) 0 (VEC 0 0 0) (VEC 1 0 0) (VEC 3 4 0)) as (y & A & _ & C); [cbn; lia|reflexivity..|intros E; injection E; intros; lra|].
  exists y. split; [exact A|]. cbn [Nat.add] in C. rewrite C. do 2 f_equal. unfold inner, vsub, distance. cbn [v0 v1 v2]. replace ((3 - 0) * (3 - 0) + (4 - 0) * (4 - 0) + (0 - 0) * (0 - 0)) with (5 * 5) by lra. rewrite sqrt_square by lra. lra.
Qed.
