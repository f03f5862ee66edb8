(** C11, C12: interpolating a field on one grid. *)
From Coq Require Import List Arith ZArith QArith Qround Qabs Bool Lia Lqa ZifyBool ZifyNat.
From Verif Require Import StreamModel StreamProofs InterpModel InterpSpec InterpProofs AmrProofs.
Import ListNotations.
Local Open Scope Q_scope.

(** Interpolating field [f], with [nc] components, at the points [xs] gives the
    value [v] for component [m] at the [a]th point, which is [x]. *)
Definition result (K : kernel) (f : cfield) (nc : nat) (xs : list pt)
    (a : nat) (x : pt) (m : nat) (v : Q) : Prop :=
  exists lo hi nbs rs vs,
    interp K [mkpatch lo hi f] nbs nc xs = Some rs /\
    nth_error xs a = Some x /\ nth_error rs a = Some vs /\ nth_error vs m = Some v.

Lemma Forall2_nth {A B} (R : A -> B -> Prop) l l' a y :
  Forall2 R l l' -> nth_error l' a = Some y -> exists x, nth_error l a = Some x /\ R x y.
Proof.
  intros H. revert a. induction H as [|x y' l l' Hxy H IH]; intros a Ha.
  - destruct a; discriminate.
  - destruct a as [|a]; [|apply IH; auto].
    cbn in Ha. injection Ha as Ha. subst y'. exists x. auto.
Qed.
Lemma Forall2_nth_l {A B} (R : A -> B -> Prop) l l' a x :
  Forall2 R l l' -> nth_error l a = Some x -> exists y, nth_error l' a = Some y /\ R x y.
Proof.
  intros H. revert a. induction H as [|x' y' l l' Hxy H IH]; intros a Ha.
  - destruct a; discriminate.
  - destruct a as [|a]; [|apply IH; auto].
    cbn in Ha. injection Ha as Ha. subst x'. exists y'. auto.
Qed.
Lemma Forall2_len {A B} (R : A -> B -> Prop) l l' : Forall2 R l l' -> length l = length l'.
Proof. induction 1; cbn; congruence. Qed.
Lemma nth_error_seq0 n a m : nth_error (seq 0 n) a = Some m -> m = a /\ (a < n)%nat.
Proof.
  intros H. assert (a < length (seq 0 n))%nat by (apply nth_error_Some; congruence).
  rewrite seq_length in H0. split; [|auto].
  rewrite (nth_error_nth' _ 0%nat) in H by (rewrite seq_length; auto).
  rewrite seq_nth in H by auto. cbn in H. congruence.
Qed.

Section OneGrid.
Context (K : kernel) (HK : steady K) (f : cfield) (Hf : prepared f).
Context (lo hi : pt) (nbs : list (list nat)).
Notation ps := [mkpatch lo hi f].

Lemma one_prepared p : In p ps -> prepared (p_fld p).
Proof. intros [<-|[]]. exact Hf. Qed.
Lemma one_smax p q : In p ps -> In q ps -> smax (p_fld p) = smax (p_fld q).
Proof. intros [<-|[]] [<-|[]]. reflexivity. Qed.
Lemma one_cached : cached ps cache0.
Proof. intros p Hp. apply cache0_ok, one_prepared, Hp. Qed.

Lemma one_rows nc xs :
  exists rs, interp K ps nbs nc xs = Some rs /\
    Forall2 (fun x vs => Forall2 (fun m v => value_of K f m x v) (seq 0 nc) vs) xs rs.
Proof.
  destruct (interp_points_spec K ps nbs HK one_prepared one_smax nc xs 0 cache0)
    as (rs & E & H); [cbn [length]; lia|cbn [length]; lia|apply one_cached|].
  exists rs. split; [exact E|]. clear E. induction H as [|x vs xs rs Hx H IH]; constructor; auto.
  unfold row_of in Hx. clear -Hx. induction Hx as [|m v ms vs Hm Hx IH]; constructor; auto.
  destruct Hm as (j & p & _ & Hp & Hv). destruct j as [|[|j]]; try discriminate.
  injection Hp as <-. exact Hv.
Qed.
End OneGrid.

Lemma result_value K f nc xs a x m v :
  steady K -> prepared f -> result K f nc xs a x m v -> value_of K f m x v /\ (m < nc)%nat.
Proof.
  intros HK Hf (lo & hi & nbs & rs & vs & E & Hx & Hr & Hv).
  destruct (one_rows K HK f Hf lo hi nbs nc xs) as (rs' & E' & H).
  assert (rs' = rs) by congruence. subst rs'.
  destruct (Forall2_nth _ _ _ _ _ H Hr) as (x' & Hx' & Hrow).
  assert (x' = x) by congruence. subst x'.
  destruct (Forall2_nth _ _ _ _ _ Hrow Hv) as (m' & Hm' & Hval).
  apply nth_error_seq0 in Hm' as [-> Hlt]. auto.
Qed.

Lemma value_result K f nc xs a x m v :
  steady K -> prepared f -> nth_error xs a = Some x -> (m < nc)%nat ->
  value_of K f m x v -> result K f nc xs a x m v.
Proof.
  intros HK Hf Hx Hm Hv.
  destruct (one_rows K HK f Hf x x [] nc xs) as (rs & E & H).
  destruct (Forall2_nth_l _ _ _ _ _ H Hx) as (vs & Hvs & Hrow).
  assert (Hms : nth_error (seq 0 nc) m = Some m).
  { rewrite (nth_error_nth' _ 0%nat) by (rewrite seq_length; auto).
    rewrite seq_nth by auto. reflexivity. }
  destruct (Forall2_nth_l _ _ _ _ _ Hrow Hms) as (v' & Hv' & Hval).
  assert (v' = v).
  { destruct Hv as (h1 & Hv). destruct Hval as (h2 & Hval). congruence. }
  subst v'. exists x, x, [], rs, vs. auto.
Qed.

(** ** C12 *)

(** Whatever index the search starts from, it finds the last coordinate that does
    not exceed the value. *)
Theorem search_result_does_not_depend_on_its_start :
  forall f m d v start,
  prepared f -> (d < 3)%nat -> (1 < nn f d)%nat -> unif f = false ->
  (start < nn f d)%nat ->
  exists i, closest_preceeding_ind f m d v start = Some i /\
            last_not_above (crd f m d) (nn f d) v i.
Proof.
  intros f m d v start P Hd Hn Hu Hs. pose proof (smax_ge f d Hd).
  apply search_result; auto; [apply (pr_inc f P m d Hd)|lia].
Qed.

(** Interpolation always succeeds, and each point gets the values it gets when it
    is the only point. *)
Theorem interpolation_does_not_depend_on_history :
  forall K f lo hi nbs nc xs,
  (K = interp_trilin1 \/ K = interp_nearest1) -> prepared f ->
  exists rs, interp K [mkpatch lo hi f] nbs nc xs = Some rs /\
    length rs = length xs /\
    forall a x vs, nth_error xs a = Some x -> nth_error rs a = Some vs ->
      interp K [mkpatch lo hi f] nbs nc [x] = Some [vs].
Proof.
  intros K f lo hi nbs nc xs HKs Hf.
  assert (HK : steady K) by (destruct HKs as [->| ->]; [apply trilin1_steady|apply nearest1_steady]).
  destruct (one_rows K HK f Hf lo hi nbs nc xs) as (rs & E & H).
  exists rs. split; [exact E|]. split; [symmetry; eapply Forall2_len; eauto|].
  intros a x vs Hx Hvs. destruct (Forall2_nth_l _ _ _ _ _ H Hx) as (vs' & Hvs' & Hrow).
  assert (vs' = vs) by congruence. subst vs'.
  destruct (one_rows K HK f Hf lo hi nbs nc [x]) as (rs1 & E1 & H1).
  inversion H1 as [|? vs1 ? rs1' Hrow1 Hnil]; subst. inversion Hnil; subst. rewrite E1.
  do 2 f_equal. clear -Hrow Hrow1. revert vs1 Hrow1.
  induction Hrow as [|m v ms vs Hm H IH]; intros vs1 H1; inversion H1; subst; auto.
  f_equal; [|auto]. destruct Hm as (? & Hm). destruct H3 as (? & Hm'). congruence.
Qed.

(** ** C11 *)

Lemma lerp1_eq a a' b b' t : a == a' -> b == b' -> lerp1 a b t == lerp1 a' b' t.
Proof. intros H1 H2. unfold lerp1. rewrite H1, H2. reflexivity. Qed.
Lemma lerp1_between lo hi a b t :
  0 <= t <= 1 -> lo <= a <= hi -> lo <= b <= hi -> lo <= lerp1 a b t <= hi.
Proof.
  intros [T0 T1] [A1 A2] [B1 B2]. unfold lerp1.
  assert (0 <= t * (b - lo)) by (apply Qmult_le_0_compat; lra).
  assert (0 <= (1 - t) * (a - lo)) by (apply Qmult_le_0_compat; lra).
  assert (0 <= t * (hi - b)) by (apply Qmult_le_0_compat; lra).
  assert (0 <= (1 - t) * (hi - a)) by (apply Qmult_le_0_compat; lra).
  lra.
Qed.

(** every value is the trilinear form on a cell around the clamped point *)
Lemma result_located f nc xs a x m v :
  prepared f -> result interp_trilin1 f nc xs a x m v ->
  exists i j k p q r tx ty tz,
    v = trilin (fun a b c => dat f a b c m) i j k p q r tx ty tz /\
    located (crd f m 0) (nn f 0) (px x) i p tx /\
    located (crd f m 1) (nn f 1) (py x) j q ty /\
    located (crd f m 2) (nn f 2) (pz x) k r tz.
Proof.
  intros P R.
  destruct (result_value _ _ _ _ _ _ _ _ trilin1_steady P R) as [(h' & V) _].
  destruct (trilin1_located f m x cache0 P (cache0_ok f P))
    as (i & j & k & p & q & r & tx & ty & tz & h2 & E & _ & L0 & L1 & L2).
  exists i, j, k, p, q, r, tx, ty, tz. split; [congruence|]. auto.
Qed.

Lemma located_node c n w n0 i p t (g : nat -> Q) :
  increasing c n -> (n0 < n)%nat -> w == c n0 -> located c n w i p t ->
  lerp1 (g i) (g (i + p)%nat) t == g n0.
Proof.
  intros Hinc Hn0 Hw L.
  assert (C : clamp (c 0%nat) (c (n - 1)%nat) w == c n0).
  { unfold clamp. destruct (Qle_bool w (c 0%nat)) eqn:E1.
    - apply Qle_bool_iff in E1.
      destruct n0 as [|n0]; [lra|]. pose proof (Hinc 0%nat (S n0) ltac:(lia)). lra.
    - destruct (Qle_bool _ w) eqn:E2; [|exact Hw]. apply Qle_bool_iff in E2.
      destruct (Nat.eq_dec n0 (n - 1)) as [->|N]; [lra|].
      pose proof (Hinc n0 (n - 1)%nat ltac:(lia)). lra. }
  destruct L as [Lr Lp [Lt0 Lt1] Ll Lb La]. rewrite C in Ll, Lb, La.
  assert (HH : (i <= n0 <= i + p)%nat).
  { split.
    - destruct (Nat.leb_spec i n0); auto. pose proof (Hinc n0 i ltac:(lia)). lra.
    - destruct (Nat.leb_spec n0 (i + p)); auto.
      pose proof (Hinc (i + p)%nat n0 ltac:(lia)). lra. }
  unfold lerp1. destruct (Nat.eq_dec p 0) as [->|Np].
  { replace (i + 0)%nat with n0 by lia. replace i with n0 by lia. ring. }
  destruct (Nat.eq_dec n0 i) as [->|N].
  - pose proof (Hinc i (i + p)%nat ltac:(lia)).
    assert (M : t * (c (i + p)%nat - c i) == 0) by lra.
    apply Qmult_integral in M as [M|M]; [|lra]. rewrite M. ring.
  - assert (E : (i + p)%nat = n0) by lia. rewrite E in *.
    pose proof (Hinc i n0 ltac:(lia)).
    assert (M : (1 - t) * (c n0 - c i) == 0) by lra.
    apply Qmult_integral in M as [M|M]; [|lra]. assert (T : t == 1) by lra. rewrite T. ring.
Qed.

(** A grid node gets the stored value. *)
Theorem trilinear_exact_at_nodes :
  forall f nc xs a x m v i j k,
  prepared f -> result interp_trilin1 f nc xs a x m v ->
  (i < nn f 0)%nat -> (j < nn f 1)%nat -> (k < nn f 2)%nat ->
  px x == crd f m 0 i -> py x == crd f m 1 j -> pz x == crd f m 2 k ->
  v == dat f i j k m.
Proof.
  intros f nc xs a x m v i j k P R Hi Hj Hk Ex Ey Ez.
  destruct (result_located _ _ _ _ _ _ _ P R)
    as (i' & j' & k' & p & q & r & tx & ty & tz & -> & L0 & L1 & L2).
  unfold trilin. cbv beta zeta.
  pose proof (fun g => located_node _ _ _ i _ _ _ g (pr_inc f P m 0 ltac:(lia)) Hi Ex L0) as N0.
  pose proof (fun g => located_node _ _ _ j _ _ _ g (pr_inc f P m 1 ltac:(lia)) Hj Ey L1) as N1.
  pose proof (fun g => located_node _ _ _ k _ _ _ g (pr_inc f P m 2 ltac:(lia)) Hk Ez L2) as N2.
  transitivity (lerp1 (dat f i j k' m) (dat f i j (k' + r)%nat m) tz).
  - apply lerp1_eq.
    + transitivity (lerp1 (dat f i j' k' m) (dat f i (j' + q)%nat k' m) ty).
      * apply lerp1_eq; [exact (N0 (fun a => dat f a j' k' m))|
                         exact (N0 (fun a => dat f a (j' + q)%nat k' m))].
      * exact (N1 (fun b => dat f i b k' m)).
    + transitivity (lerp1 (dat f i j' (k' + r)%nat m) (dat f i (j' + q)%nat (k' + r)%nat m) ty).
      * apply lerp1_eq; [exact (N0 (fun a => dat f a j' (k' + r)%nat m))|
                         exact (N0 (fun a => dat f a (j' + q)%nat (k' + r)%nat m))].
      * exact (N1 (fun b => dat f i b (k' + r)%nat m)).
  - exact (N2 (fun c => dat f i j c m)).
Qed.

Lemma affine_lerp g c n w i p t :
  affine g -> located c n w i p t ->
  lerp1 (g (c i)) (g (c (i + p)%nat)) t == g (clamp (c 0%nat) (c (n - 1)%nat) w).
Proof.
  intros (a & b & H) L. unfold lerp1. rewrite !H. rewrite <- (lo_lerp _ _ _ _ _ _ L). ring.
Qed.

(** Data sampled from a function that is affine in each coordinate gives that
    function back, at the point of the grid's box nearest to the given one. *)
Theorem trilinear_exact_for_affine_data :
  forall f nc xs a x m v F,
  prepared f -> result interp_trilin1 f nc xs a x m v -> affine3 F ->
  (forall i j k, (i < nn f 0)%nat -> (j < nn f 1)%nat -> (k < nn f 2)%nat ->
     dat f i j k m == F (crd f m 0 i) (crd f m 1 j) (crd f m 2 k)) ->
  v == F (px (clamp_pt f m x)) (py (clamp_pt f m x)) (pz (clamp_pt f m x)).
Proof.
  intros f nc xs a x m v F P R [FX FY FZ] D.
  destruct (result_located _ _ _ _ _ _ _ P R)
    as (i & j & k & p & q & r & tx & ty & tz & -> & L0 & L1 & L2).
  unfold trilin, clamp_pt. cbv beta zeta. cbn [px py pz].
  set (X := clamp (crd f m 0 0%nat) (crd f m 0 (nn f 0 - 1)%nat) (px x)).
  set (Y := clamp (crd f m 1 0%nat) (crd f m 1 (nn f 1 - 1)%nat) (py x)).
  set (Z := clamp (crd f m 2 0%nat) (crd f m 2 (nn f 2 - 1)%nat) (pz x)).
  pose proof (lo_range _ _ _ _ _ _ L0). pose proof (lo_range _ _ _ _ _ _ L1).
  pose proof (lo_range _ _ _ _ _ _ L2).
  assert (AX : forall b c, (b < nn f 1)%nat -> (c < nn f 2)%nat ->
     lerp1 (dat f i b c m) (dat f (i + p)%nat b c m) tx == F X (crd f m 1 b) (crd f m 2 c)).
  { intros b c Hb Hc. transitivity
      (lerp1 (F (crd f m 0 i) (crd f m 1 b) (crd f m 2 c))
             (F (crd f m 0 (i + p)%nat) (crd f m 1 b) (crd f m 2 c)) tx).
    - apply lerp1_eq; apply D; lia.
    - exact (affine_lerp _ _ _ _ _ _ _ (FX (crd f m 1 b) (crd f m 2 c)) L0). }
  assert (AY : forall c, (c < nn f 2)%nat ->
     lerp1 (lerp1 (dat f i j c m) (dat f (i + p)%nat j c m) tx)
           (lerp1 (dat f i (j + q)%nat c m) (dat f (i + p)%nat (j + q)%nat c m) tx) ty
     == F X Y (crd f m 2 c)).
  { intros c Hc. transitivity
      (lerp1 (F X (crd f m 1 j) (crd f m 2 c)) (F X (crd f m 1 (j + q)%nat) (crd f m 2 c)) ty).
    - apply lerp1_eq; apply AX; lia.
    - exact (affine_lerp _ _ _ _ _ _ _ (FY X (crd f m 2 c)) L1). }
  transitivity (lerp1 (F X Y (crd f m 2 k)) (F X Y (crd f m 2 (k + r)%nat)) tz).
  - apply lerp1_eq; apply AY; lia.
  - exact (affine_lerp _ _ _ _ _ _ _ (FZ X Y) L2).
Qed.

(** The value lies between the least and the greatest stored value on the corners
    of a cell, the cell holding the point of the grid's box nearest to the given
    one. *)
Theorem trilinear_never_overshoots :
  forall f nc xs a x m v,
  prepared f -> result interp_trilin1 f nc xs a x m v ->
  exists i j k i' j' k',
    (i <= i' <= i + 1)%nat /\ (j <= j' <= j + 1)%nat /\ (k <= k' <= k + 1)%nat /\
    (i' < nn f 0)%nat /\ (j' < nn f 1)%nat /\ (k' < nn f 2)%nat /\
    crd f m 0 i <= px (clamp_pt f m x) <= crd f m 0 i' /\
    crd f m 1 j <= py (clamp_pt f m x) <= crd f m 1 j' /\
    crd f m 2 k <= pz (clamp_pt f m x) <= crd f m 2 k' /\
    forall lo hi,
      (forall a b c, (a = i \/ a = i') -> (b = j \/ b = j') -> (c = k \/ c = k') ->
         lo <= dat f a b c m <= hi) ->
      lo <= v <= hi.
Proof.
  intros f nc xs a x m v P R.
  destruct (result_located _ _ _ _ _ _ _ P R)
    as (i & j & k & p & q & r & tx & ty & tz & -> & L0 & L1 & L2).
  exists i, j, k, (i + p)%nat, (j + q)%nat, (k + r)%nat.
  destruct L0 as [A1 A2 A3 A4 A5 A6], L1 as [B1 B2 B3 B4 B5 B6], L2 as [C1 C2 C3 C4 C5 C6].
  cbn [clamp_pt px py pz].
  split; [lia|]. split; [lia|]. split; [lia|]. split; [lia|]. split; [lia|]. split; [lia|].
  split; [auto|]. split; [auto|]. split; [auto|].
  intros lo hi H. unfold trilin. cbv beta zeta.
  assert (X : forall b c, (b = j \/ b = (j + q)%nat) -> (c = k \/ c = (k + r)%nat) ->
     lo <= lerp1 (dat f i b c m) (dat f (i + p)%nat b c m) tx <= hi)
    by (intros b c Hb Hc; apply lerp1_between; auto).
  apply lerp1_between; [exact C3| |]; apply lerp1_between; auto.
Qed.

(** In particular it never leaves the range of the data. *)
Corollary trilinear_within_data_range :
  forall f nc xs a x m v lo hi,
  prepared f -> result interp_trilin1 f nc xs a x m v ->
  (forall i j k, (i < nn f 0)%nat -> (j < nn f 1)%nat -> (k < nn f 2)%nat ->
     lo <= dat f i j k m <= hi) ->
  lo <= v <= hi.
Proof.
  intros f nc xs a x m v lo hi P R H.
  destruct (trilinear_never_overshoots f nc xs a x m v P R)
    as (i & j & k & i' & j' & k' & Hi & Hj & Hk & Hi' & Hj' & Hk' & _ & _ & _ & B).
  apply B. intros b c e Hb Hc He. apply H; lia.
Qed.

(** A point outside the grid gets the value at the nearest point of its box. *)
Theorem trilinear_outside_is_the_boundary_value :
  forall f nc xs a x m v,
  prepared f -> result interp_trilin1 f nc xs a x m v ->
  result interp_trilin1 f nc [clamp_pt f m x] 0 (clamp_pt f m x) m v.
Proof.
  intros f nc xs a x m v P R.
  destruct (result_value _ _ _ _ _ _ _ _ trilin1_steady P R) as [(h' & V) Hm].
  apply value_result; auto using trilin1_steady.
  exists h'. rewrite <- V. cbn [interp_trilin1 cache0].
  assert (CL : forall d w, (d < 3)%nat ->
    locate f m d (clamp (crd f m d 0%nat) (crd f m d (nn f d - 1)%nat) w) 0 = locate f m d w 0).
  { intros d w Hd. pose proof (pr_inc f P m d Hd) as Hinc. pose proof (pr_n f P d Hd).
    unfold locate, clamp, xl, xh.
    destruct (Nat.eqb_spec (nn f d) 1) as [E|E]; cbn [orb]; [reflexivity|].
    pose proof (Hinc 0%nat (nn f d - 1)%nat ltac:(lia)) as Hlt.
    destruct (Qle_bool w (crd f m d 0)) eqn:E1.
    - replace (Qle_bool (crd f m d 0) (crd f m d 0)) with true; [reflexivity|].
      symmetry. apply Qle_bool_iff. lra.
    - destruct (Qle_bool (crd f m d (nn f d - 1)) w) eqn:E2.
      + replace (Qle_bool (crd f m d (nn f d - 1)) (crd f m d 0)) with false
          by (symmetry; apply Qleb_gt; exact Hlt).
        replace (Qle_bool (crd f m d (nn f d - 1)) (crd f m d (nn f d - 1))) with true; [reflexivity|].
        symmetry. apply Qle_bool_iff. lra.
      + rewrite E1, E2. reflexivity. }
  unfold clamp_pt; cbn [px py pz].
  rewrite (CL 0%nat (px x) ltac:(lia)), (CL 1%nat (py x) ltac:(lia)), (CL 2%nat (pz x) ltac:(lia)).
  reflexivity.
Qed.

(** Nearest neighbour interpolation returns the stored value whose coordinates
    are nearest on every axis. *)
Theorem nearest_interpolation_is_nearest :
  forall f nc xs a x m v,
  prepared f -> result interp_nearest1 f nc xs a x m v ->
  exists i j k, v = dat f i j k m /\
    is_nearest (crd f m 0) (nn f 0) (px x) i /\
    is_nearest (crd f m 1) (nn f 1) (py x) j /\
    is_nearest (crd f m 2) (nn f 2) (pz x) k.
Proof.
  intros f nc xs a x m v P R.
  destruct (result_value _ _ _ _ _ _ _ _ nearest1_steady P R) as [(h' & V) Hm].
  destruct (cache0_ok f P) as (O0 & O1 & O2).
  destruct (closest_ind_nearest f m 0 (px x) 0 P ltac:(lia) O0) as (i & s0 & E0 & _ & N0).
  destruct (closest_ind_nearest f m 1 (py x) 0 P ltac:(lia) O1) as (j & s1 & E1 & _ & N1).
  destruct (closest_ind_nearest f m 2 (pz x) 0 P ltac:(lia) O2) as (k & s2 & E2 & _ & N2).
  cbn [interp_nearest1 cache0] in V. rewrite E0, E1, E2 in V.
  exists i, j, k. split; [congruence|auto].
Qed.

(** Every point has a value, for every component. *)
Theorem interpolation_total :
  forall K f nc xs a x m,
  (K = interp_trilin1 \/ K = interp_nearest1) -> prepared f ->
  nth_error xs a = Some x -> (m < nc)%nat -> exists v, result K f nc xs a x m v.
Proof.
  intros K f nc xs a x m HKs P Hx Hm.
  assert (HK : steady K) by (destruct HKs as [->| ->]; [apply trilin1_steady|apply nearest1_steady]).
  destruct (HK f m x cache0 cache0 P (cache0_ok f P) (cache0_ok f P)) as (v & h & _ & E & _).
  exists v. apply value_result; auto. exists h. exact E.
Qed.

(** ** Witnesses: a stretched 3 x 2 x 1 grid and an evenly spaced one *)
Definition wit_crd (d i : nat) : Q :=
  match d, i with
  | O, O => 0 | O, S O => 1 | O, _ => 4
  | S O, O => -1 | S O, _ => 2
  | _, _ => 7
  end.
Definition wit : cfield :=
  mkf (fun d => match d with O => 3 | S O => 2 | _ => 1 end%nat)
      (fun _ => wit_crd) false
      (fun i j k m => wit_crd 0 i * wit_crd 1 j + inject_Z (Z.of_nat m)).
Definition wit_u : cfield :=
  mkf (fun d => match d with O => 3 | S O => 2 | _ => 1 end%nat)
      (fun _ d i => inject_Z (Z.of_nat i)) true (fun i j k m => inject_Z (Z.of_nat (i * i + j))).

Example wit_prepared : prepared wit.
Proof.
  constructor.
  - intros d Hd. destruct d as [|[|[|d]]]; cbn; lia.
  - intros m d Hd i j Hij. cbn [nn crd wit] in *.
    destruct d as [|[|[|d]]]; [| | |lia];
      destruct i as [|[|[|i]]], j as [|[|[|j]]]; try lia; reflexivity.
  - intros m d Hd H. discriminate.
Qed.
Example wit_u_prepared : prepared wit_u.
Proof.
  constructor.
  - intros d Hd. destruct d as [|[|[|d]]]; cbn; lia.
  - intros m d Hd i j Hij. cbn [crd wit_u]. rewrite <- Zlt_Qlt. lia.
  - intros m d Hd _ i Hi. cbn [nn crd wit_u] in *.
    destruct d as [|[|[|d]]]; [| | |lia]; destruct i as [|[|[|i]]]; try lia; reflexivity.
Qed.
Definition wit_points : list pt := [mkpt 2 (1#2) 7; mkpt 0 (-1) 0; mkpt 9 (-9) 9; mkpt (1#2) 0 3].
Example wit_trilin :
  option_map (map (map Qred)) (interp interp_trilin1 [mkpatch (mkpt 0 0 0) (mkpt 0 0 0) wit] [] 2 wit_points)
  = Some [[1; 2]; [0; 1]; [-4 # 1; -3 # 1]; [0; 1]].
Proof. vm_compute. reflexivity. Qed.
Example wit_nearest :
  option_map (map (map Qred)) (interp interp_nearest1 [mkpatch (mkpt 0 0 0) (mkpt 0 0 0) wit] [] 1 wit_points)
  = Some [[-1 # 1]; [0]; [-4 # 1]; [0]].
Proof. vm_compute. reflexivity. Qed.
Example wit_uniform :
  option_map (map (map Qred)) (interp interp_trilin1 [mkpatch (mkpt 0 0 0) (mkpt 0 0 0) wit_u] [] 1 wit_points)
  = Some [[9 # 2]; [0]; [4 # 1]; [1 # 2]].
Proof. vm_compute. reflexivity. Qed.
(** [x*y + m] is affine in each coordinate *)
Example wit_affine m : affine3 (fun x y _ => x * y + m).
Proof.
  constructor.
  - intros y z. exists m, y. intros x. ring.
  - intros x z. exists m, x. intros y. ring.
  - intros x y. exists (x * y + m), 0. intros z. ring.
Qed.

Print Assumptions search_result_does_not_depend_on_its_start.
Print Assumptions interpolation_does_not_depend_on_history.
Print Assumptions interpolation_total.
Print Assumptions trilinear_exact_at_nodes.
Print Assumptions trilinear_exact_for_affine_data.
Print Assumptions trilinear_never_overshoots.
Print Assumptions trilinear_within_data_range.
Print Assumptions trilinear_outside_is_the_boundary_value.
Print Assumptions nearest_interpolation_is_nearest.
