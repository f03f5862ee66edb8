(** Model of viscid/cython/null_tools.pyx over the reals: candidate cells, roots on the faces of a
    cell, reported cells, and the classification of nulls by eigenvalues.  The field is a function
    of three node indices and the component.  Rounding is not modelled. *)
From Coq Require Export Reals List Bool ZArith.
Export ListNotations.
Open Scope R_scope.

Definition fld := nat -> nat -> nat -> nat -> R.

(** * _py_reduce_candidates, 124-184 *)
(* 145-150 *)
Definition sign (b : fld) (i j k d : nat) : bool := if Rlt_dec 0 (b i j k d) then true else false.
(* 159-179 *)
Definition different (b : fld) (i j k d : nat) : bool :=
  let s000 := sign b i j k d in
  let s001 := sign b i j (k + 1) d in
  let s010 := sign b i (j + 1) k d in
  let s011 := sign b i (j + 1) (k + 1) d in
  let s100 := sign b (i + 1) j k d in
  let s101 := sign b (i + 1) j (k + 1) d in
  let s110 := sign b (i + 1) (j + 1) k d in
  let s111 := sign b (i + 1) (j + 1) (k + 1) d in
  xorb s000 s001 || xorb s001 s010 || xorb s010 s011 || xorb s011 s100 ||
  xorb s100 s101 || xorb s101 s110 || xorb s110 s111.
(* 155-157, 180: the body of the loop *)
Definition candidate (b : fld) (x y z : nat -> R) (ibound : R) (i j k : nat) : bool :=
  let r_sq := x i ^ 2 + y j ^ 2 + z k ^ 2 in
  if Rlt_dec r_sq (ibound ^ 2) then false
  else different b i j k 0 && different b i j k 1 && different b i j k 2.
(* 152-154, 181-184: the cells in the order of the loops *)
Definition candidates (nx ny nz : nat) (b : fld) (x y z : nat -> R) (ibound : R) : list (nat * nat * nat) :=
  flat_map (fun i => flat_map (fun j => flat_map (fun k =>
    if candidate b x y z ibound i j k then [(i, j, k)] else []) (seq 0 (nz - 1))) (seq 0 (ny - 1))) (seq 0 (nx - 1)).

(** * find_roots_face, 282-337 *)
(* 302-327; an empty array has no roots *)
Definition roots_x (a b c : R) : list R :=
  if Req_EM_T a 0 then (if Req_EM_T b 0 then [] else [- c / b])
  else let desc := b ^ 2 - 4 * a * c in
       if Rlt_dec 0 desc then [(- b + sqrt desc) / (2 * a); (- b - sqrt desc) / (2 * a)]
       else if Req_EM_T desc 0 then [- b / (2 * a)]
       else [].
(* 329-335; a division by zero is an infinity or nan, which no comparison keeps *)
Definition keep_root (a1 b1 c1 d1 x : R) : list (R * R) :=
  if Req_EM_T (c1 + d1 * x) 0 then []
  else let y := - (a1 + b1 * x) / (c1 + d1 * x) in
       if Rle_dec 0 x then if Rle_dec x 1 then if Rlt_dec 0 y then if Rlt_dec y 1 then [(x, y)]
       else [] else [] else [] else [].
Definition find_roots_face (a1 b1 c1 d1 a2 b2 c2 d2 : R) : list (R * R) :=
  let a := b1 * d2 - d1 * b2 in
  let b := (a1 * d2 - d1 * a2) + (b1 * c2 - c1 * b2) in
  let c := a1 * c2 - c1 * a2 in
  flat_map (keep_root a1 b1 c1 d1) (roots_x a b c).

(** * _py_find_null_cells_from_candidates, 186-280 *)
(* 198-212: offsets of the four nodes of the six faces *)
Definition oa (i : nat) : nat * nat * nat := (nth i [0; 0; 0; 1; 0; 0] 0, nth i [0; 0; 0; 0; 0; 1] 0, nth i [0; 1; 0; 0; 0; 0] 0)%nat.
Definition ob (i : nat) : nat * nat * nat := (nth i [1; 1; 0; 1; 0; 0] 0, nth i [0; 0; 1; 1; 0; 1] 0, nth i [0; 1; 0; 0; 1; 1] 0)%nat.
Definition oc (i : nat) : nat * nat * nat := (nth i [0; 0; 0; 1; 1; 1] 0, nth i [1; 1; 0; 0; 0; 1] 0, nth i [0; 1; 1; 1; 0; 0] 0)%nat.
Definition od (i : nat) : nat * nat * nat := (nth i [1; 1; 0; 1; 1; 1] 0, nth i [0; 0; 1; 1; 0; 1] 0, nth i [0; 1; 1; 1; 1; 1] 0)%nat.
Definition at_off (f : fld) (ix iy iz : nat) (o : nat * nat * nat) (c : nat) : R :=
  let '(ox, oy, oz) := o in f (ix + ox)%nat (iy + oy)%nat (iz + oz)%nat c.
(* 237-250: the coefficients of one component on face i *)
Definition coef (f : fld) (ix iy iz i c : nat) : R * R * R * R :=
  let a := at_off f ix iy iz (oa i) c in
  let b := at_off f ix iy iz (ob i) c - a in
  let c' := at_off f ix iy iz (oc i) c - a in
  let d := at_off f ix iy iz (od i) c - c' - b - a in
  (a, b, c', d).
(* 236-255: the roots on one face with the value of the third component *)
Definition face_roots (f : fld) (ix iy iz i ic1 ic2 ic3 : nat) : list (R * R * R) :=
  let '(a1, b1, c1, d1) := coef f ix iy iz i ic1 in
  let '(a2, b2, c2, d2) := coef f ix iy iz i ic2 in
  let '(a3, b3, c3, d3) := coef f ix iy iz i ic3 in
  map (fun r => (fst r, snd r, a3 + b3 * fst r + c3 * snd r + d3 * fst r * snd r)) (find_roots_face a1 b1 c1 d1 a2 b2 c2 d2).
(* 252-261: all_roots, positive_roots, have_null *)
Definition count1 (i : nat) (s : nat * nat * bool) (r : R * R * R) : nat * nat * bool :=
  let '(all, pos, have) := s in
  let ff3 := snd r in
  if Rlt_dec 0 ff3 then (S all, S pos, have)
  else if Req_EM_T ff3 0 then (S all, pos, if Nat.even i then true else have)
  else (S all, pos, have).
Definition count_roots (f : fld) (ix iy iz ic1 ic2 ic3 : nat) (have : bool) : nat * nat * bool :=
  fold_left (fun s i => fold_left (count1 i) (face_roots f ix iy iz i ic1 ic2 ic3) s) (seq 0 6) (0%nat, 0%nat, have).
(* 213-215, 224-234, 269-274: the three orders of the components; true: the cell is reported *)
Fixpoint orders (f : fld) (ix iy iz : nat) (l : list (nat * nat * nat)) (have : bool) : bool :=
  match l with
  | [] => have
  | (ic1, ic2, ic3) :: l =>
      let '(all, pos, have) := count_roots f ix iy iz ic1 ic2 ic3 have in
      if (Nat.odd pos && Nat.even all) || have then true else orders f ix iy iz l have
  end.
Definition have_null (f : fld) (ix iy iz : nat) : bool := orders f ix iy iz [(0, 1, 2); (1, 2, 0); (2, 0, 1)]%nat false.

(** * find_nulls, 36-50, 100-107 and 109-122 *)
Inductive err := BufferError | IndexError.
(* the indices and points of the reported cells.  Three empty lists make a float array: as the
   argument inds it is a buffer error, as an index it is an IndexError *)
Definition find_nulls (nx ny nz : nat) (f : fld) (x y z : nat -> R) (ibound : R) : err + list (nat * nat * nat * (R * R * R)) :=
  match candidates nx ny nz f x y z ibound with
  | [] => inl BufferError
  | cs => match filter (fun c => let '(i, j, k) := c in have_null f i j k) cs with
          | [] => inl IndexError
          | ns => inr (map (fun c => let '(i, j, k) := c in ((i, j, k), (x i, y j, z k))) ns)
          end
  end.

(** * _classify_nulls, 52-98 *)
Definition cplx := (R * R)%type.
(* np.isclose(v, 0.0): |v| <= atol + rtol * |0| *)
Definition is0 (rtol atol v : R) : bool := if Rle_dec v (atol + rtol * 0) then true else false.
Inductive kind := KZero | KReal | KComplex.
Definition kind_of (rtol atol : R) (e : cplx) : kind :=
  if is0 rtol atol (sqrt (fst e ^ 2 + snd e ^ 2)) then KZero
  else if is0 rtol atol (Rabs (snd e)) then KReal
  else KComplex.
Definition of_kind (rtol atol : R) (k : kind) (l : list cplx) : list cplx :=
  filter (fun e => match kind_of rtol atol e, k with KZero, KZero | KReal, KReal | KComplex, KComplex => true | _, _ => false end) l.
Inductive null_type := NO | NA | NB | Unknown | Raises.
(* 76-95; Raises: the assertion or an IndexError *)
Definition classify (rtol atol : R) (e_vals : list cplx) : null_type :=
  let zero := of_kind rtol atol KZero e_vals in
  let real := map fst (of_kind rtol atol KReal e_vals) in
  let complex := of_kind rtol atol KComplex e_vals in
  if Nat.eqb (length zero) 1 then NO
  else if Nat.eqb (length real) 1 && Nat.eqb (length zero) 0 then
    match complex with
    | c0 :: c1 :: _ => if is0 rtol atol (Rabs (snd c0 + snd c1)) then (if Rlt_dec 0 (hd 0 real) then NA else NB) else Raises
    | _ => Raises
    end
  else if Nat.eqb (length real) 3 then
    let positive := length (filter (fun e => if Rlt_dec 0 e then true else false) real) in
    if Nat.eqb positive 1 then NA else NB
  else Unknown.
(* 59-98: the positions of the nulls of each type among the nulls, in order; None when one raises *)
Fixpoint classify_nulls (rtol atol : R) (i : nat) (evs : list (list cplx)) : option (list nat * list nat * list nat) :=
  match evs with
  | [] => Some ([], [], [])
  | e :: evs =>
      match classify rtol atol e with
      | Raises => None
      | t => match classify_nulls rtol atol (S i) evs with
             | Some (O_type, A_type, B_type) =>
                 Some (match t with NO => i :: O_type | _ => O_type end,
                       match t with NA => i :: A_type | _ => A_type end,
                       match t with NB => i :: B_type | _ => B_type end)
             | None => None
             end
      end
  end.
