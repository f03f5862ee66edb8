(** Model of the quantizer of viscid/readers/_jrrle.f90 ([wrn2] 615-680 and [rdn2] 372-475) over the
    reals.  [hdr] is what the header's format e14.7 does to a number.  The records are those of
    JrrleModel.  Single precision is not modelled. *)
From Verif Require JrrleModel.
From Coq Require Export Reals List Bool ZArith.
Export ListNotations.
Open Scope R_scope.

Definition e33 : R := 10 ^ 33.
(* 633-640 *)
Definition zrange0 (a : list R) : R * R :=
  fold_left (fun z x => (Rmin (fst z) (Rabs x), Rmax (snd z) (Rabs x))) a (e33, / e33).
(* 641-653: z1 and z2 *)
Definition zrange (a : list R) : R * R :=
  let zmin := Rmax (/ e33) (fst (zrange0 a)) in
  let zmax := Rmin e33 (snd (zrange0 a)) in
  let z2 := ln zmax in
  let z1 := if Req_EM_T zmin 0 then -76 else ln zmin in
  let z1 := Rmax z1 (z2 - 37) in
  if Rle_dec (Rabs (z2 - z1)) (1 / 10 ^ 5) then (z1 - 1, z2 + 1) else (z1, z2).
(* INT: towards zero *)
Definition INT (x : R) : Z := if Rle_dec 0 x then Int_part x else (- Int_part (- x))%Z.
(* 654-655, 661-668: sign and level of a value *)
Definition quant (z1 z2 : R) (x : R) : bool * Z :=
  let z0 := exp z1 in
  let dz := 4410 / (z2 - z1) in
  let b := Rmin e33 (Rabs x) in
  let b := Rmax z0 b in
  let b := dz * (ln b - z1) + 1 / 2 in
  ((if Rlt_dec x 0 then true else false), Z.min 4414 (Z.max 0 (INT b))).
(* 421, 458-471 *)
Definition dequant (zmin zmax : R) (v : bool * Z) : R :=
  let dzi := (zmax - zmin) / 4410 in
  let sig := if fst v then -1 else 1 in
  sig * exp (dzi * IZR (snd v) + zmin).
(* wrn2: the numbers of the header and the records; None when a record cannot be encoded *)
Definition wrn2 (hdr : R -> R) (a : list R) : option (R * R * list (list Z)) :=
  let (z1, z2) := zrange a in
  match JrrleModel.write_levels (map (quant z1 z2) a) (length a) with
  | Some recs => Some (hdr z1, hdr z2, recs)
  | None => None
  end.
(* rdn2 for a file with n values; None: n = -2 *)
Definition rdn2 (n : nat) (f : R * R * list (list Z)) : option (list R) :=
  let '(zmin, zmax, recs) := f in
  if Req_EM_T zmin zmax then Some (repeat zmin n)      (* 412-416 *)
  else match JrrleModel.read_levels recs (Z.of_nat n) n with
       | Some vs => Some (map (dequant zmin zmax) vs)
       | None => None
       end.
