(** What interpolation should do, said without the kernels. *)
From Coq Require Import List Arith ZArith QArith Qabs Bool Lia.
From Verif Require Import StreamModel InterpModel.
Local Open Scope Q_scope.

(** A prepared field: every axis has at least one point, the coordinates
    increase, and when the field is marked uniform they are evenly spaced. *)
Definition increasing (c : nat -> Q) (n : nat) : Prop :=
  forall i j, (i < j < n)%nat -> c i < c j.
Definition evenly_spaced (c : nat -> Q) (n : nat) : Prop :=
  forall i, (i < n)%nat ->
    (inject_Z (Z.of_nat n - 1)) * (c i - c 0%nat) == inject_Z (Z.of_nat i) * (c (n - 1)%nat - c 0%nat).
Record prepared (f : cfield) : Prop := mkprep {
  pr_n : forall d, (d < 3)%nat -> (1 <= nn f d)%nat;
  pr_inc : forall m d, (d < 3)%nat -> increasing (crd f m d) (nn f d);
  pr_uni : forall m d, (d < 3)%nat -> unif f = true -> evenly_spaced (crd f m d) (nn f d) }.

(** The point of the interval nearest to [v]. *)
Definition clamp (lo hi v : Q) : Q :=
  if Qle_bool v lo then lo else if Qle_bool hi v then hi else v.
(** The point of the grid's box nearest to [x], for component [m]. *)
Definition clamp_pt (f : cfield) (m : nat) (x : pt) : pt :=
  mkpt (clamp (crd f m 0 0%nat) (crd f m 0 (nn f 0 - 1)%nat) (px x))
       (clamp (crd f m 1 0%nat) (crd f m 1 (nn f 1 - 1)%nat) (py x))
       (clamp (crd f m 2 0%nat) (crd f m 2 (nn f 2 - 1)%nat) (pz x)).

(** Affine in each coordinate. *)
Definition affine (g : Q -> Q) : Prop := exists a b, forall x, g x == a + b * x.
Record affine3 (F : Q -> Q -> Q -> Q) : Prop := mkaff {
  aff_x : forall y z, affine (fun x => F x y z);
  aff_y : forall x z, affine (fun y => F x y z);
  aff_z : forall x y, affine (fun z => F x y z) }.

(** Index [i] of a coordinate nearest to [v]. *)
Definition is_nearest (c : nat -> Q) (n : nat) (v : Q) (i : nat) : Prop :=
  (i < n)%nat /\ forall j, (j < n)%nat -> Qabs (c i - v) <= Qabs (c j - v).

(** [i] is the last index whose coordinate does not exceed [v]; 0 if there is none. *)
Definition last_not_above (c : nat -> Q) (n : nat) (v : Q) (i : nat) : Prop :=
  (i < n)%nat /\ (c i <= v \/ i = 0%nat) /\ forall j, (i < j < n)%nat -> v < c j.

(** The box of a patch, grown by the tolerance used for comparing positions
    (1e-6 plus 1e-5 of the bound), contains the point. *)
Definition tol (b : Q) : Q := (1 # 1000000) + (1 # 100000) * Qabs b.
Definition inside (p : patch) (x : pt) : Prop :=
  forall k, (k < 3)%nat ->
    co (p_xl p) k - tol (co (p_xl p) k) <= co x k /\
    co x k <= co (p_xh p) k + tol (co (p_xh p) k).

(** Two patches touch: the boxes meet on every axis, up to tolerance, and on
    some axis they meet only face to face. *)
Definition gap (p q : patch) (k : nat) : Q :=
  (* distance between the centres minus the half lengths: 0 when the faces meet,
     negative when the boxes overlap on this axis *)
  Qabs ((co (p_xl p) k + co (p_xh p) k) * (1#2) - (co (p_xl q) k + co (p_xh q) k) * (1#2))
  - ((co (p_xh p) k - co (p_xl p) k) + (co (p_xh q) k - co (p_xl q) k)) * (1#2).
Definition half_len (p q : patch) (k : nat) : Q :=
  ((co (p_xh p) k - co (p_xl p) k) + (co (p_xh q) k - co (p_xl q) k)) * (1#2).
Definition touch_on (p q : patch) (k : nat) : Prop := Qabs (gap p q k) <= 1 # 1000000.
Definition touching (p q : patch) : Prop :=
  (forall k, (k < 3)%nat -> gap p q k <= 0 \/ Qabs (gap p q k) <= tol (half_len p q k)) /\
  exists k, (k < 3)%nat /\ touch_on p q k.
