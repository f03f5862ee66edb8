(** What preparing lines should give, in terms of the lines themselves. *)
From Coq Require Import List ZArith QArith Bool Arith.
From Verif Require Import LinesModel.
Import ListNotations.
Local Open Scope nat_scope.

(** [k] is the number that point [j] of line [i] has when all points are counted *)
Definition numbered (lines : list line) (k i j : nat) : Prop :=
  exists l, nth_error lines i = Some l /\ j < length l /\ k = length (concat (firstn i lines)) + j.

(** [z] is the byte nearest to [x] *)
Definition nearest_byte (x : Q) (z : Z) : Prop :=
  (0 <= z < 256)%Z /\ (x - (1 # 2) <= inject_Z z <= x + (1 # 2))%Q.

(** colours given as fractions are scaled, unless one of them exceeds 1 *)
Definition scaled (all : list Q) (x : Q) (z : Z) : Prop :=
  (Forall (fun y => (y <= 1)%Q) all -> nearest_byte (255 * x) z) /\
  (Exists (fun y => (1 < y)%Q) all -> nearest_byte x z).

(** component [c] of the colour of point [k] *)
Definition comp {A} (m : mat A) (c k : nat) : option A := nth_error (dat m) (c * nc m + k).

(** the result is a colour of [w] bytes for each of the [N] points; component [c] of
    point [k] is what [src c k] (one of the given numbers [all]) rounds to *)
Definition is_colouring (o : scalars_out) (w N : nat) (all : list Q) (src : nat -> nat -> option Q) : Prop :=
  exists m, o = ORgb m /\ nr m = w /\ nc m = N /\ length (dat m) = w * N /\
    forall c k, c < w -> k < N -> exists x z, src c k = Some x /\ comp m c k = Some z /\ scaled all x z.
