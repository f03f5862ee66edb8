(** Model of the field conversions of viscid/mapfield.py, for fields with two axes (scalars, and
    vectors in the flat and interlaced layout).  Numbers are reals: rounding is not modelled. *)
From Verif Require Export MapPtsModel.
From Coq Require Export Bool Arith.
Open Scope R_scope.

(* the unit of an axis: '', 'deg', 'rad' or another string *)
Inductive cunit := NoUnit | UDeg | URad | UOther (k : nat).
Definition eq_unit (a b : cunit) : bool :=
  match a, b with NoUnit, NoUnit | UDeg, UDeg | URad, URad => true | UOther i, UOther j => Nat.eqb i j | _, _ => false end.
(* coordinate.py 1378-1401: linspace arguments of uniform axes, arrays of others *)
Inductive cvals := Lin (xl xh : R) (n : nat) | Arr (l : list R).
Record caxis := CAX { nm : axis; un : cunit; cv : cvals }.
(* data is indexed [i, j], [component, i, j] (flat) or [i, j, component] (interlaced); the unused
   index of scalars is the last *)
Inductive layout := Scalar | Flat | Interlaced.
Record fld := FLD { ax0 : caxis; ax1 : caxis; cell : bool; lay : layout; shape : nat * nat * nat; dat : nat -> nat -> nat -> R }.

(* 63-75: None is arr_noop *)
Definition unit_xform (base target : cunit) : res (option (R -> R)) :=
  match base, target with
  | NoUnit, NoUnit => Ok None
  | NoUnit, _ => ValueError
  | _, NoUnit => Ok None
  | UDeg, URad => Ok (Some (fun x => PI / 180 * x))
  | URad, UDeg => Ok (Some (fun x => 180 / PI * x))
  | _, _ => if eq_unit base target then Ok None else ValueError
  end.
(* crds.ind: the position of an axis *)
Definition ind (f : fld) (base : axis) : option bool :=
  if eq_axis (nm (ax0 f)) base then Some false else if eq_axis (nm (ax1 f)) base then Some true else None.
Definition get_ax (f : fld) (second : bool) : caxis := if second then ax1 f else ax0 f.
Definition set_ax (f : fld) (second : bool) (a : caxis) : fld :=
  if second then FLD (ax0 f) a (cell f) (lay f) (shape f) (dat f) else FLD a (ax1 f) (cell f) (lay f) (shape f) (dat f).
(* 77-80: the axis of the data; nr_comp is 0 for flat and 2 for interlaced vectors (field.py 664-678) *)
Definition ddat (f : fld) (second : bool) : nat :=
  let dcrd := if second then 1%nat else 0%nat in
  match lay f with
  | Scalar => dcrd
  | Flat => if Nat.ltb 0 dcrd then (dcrd + 1)%nat else dcrd
  | Interlaced => if Nat.ltb 2 dcrd then (dcrd + 1)%nat else dcrd
  end.
(* a[..., ::-1, ...] on axis d of the data *)
Definition flip_dat (f : fld) (d : nat) : fld :=
  let '(n0, n1, n2) := shape f in
  let g := dat f in
  FLD (ax0 f) (ax1 f) (cell f) (lay f) (shape f)
    (match d with
     | 0%nat => fun i j k => g (n0 - 1 - i)%nat j k
     | 1%nat => fun i j k => g i (n1 - 1 - j)%nat k
     | _ => fun i j k => g i j (n2 - 1 - k)%nat
     end).
Definition bind {A B} (x : res A) (f : A -> res B) : res B :=
  match x with Ok a => f a | TypeError => TypeError | ValueError => ValueError | IndexError => IndexError end.
(* 95-98 *)
Definition xform_vals (g : list R -> res (list R)) (c : cvals) : res cvals :=
  match c with
  | Lin xl xh n => bind (g [xl; xh]) (fun l => match l with [a; b] => Ok (Lin a b n) | _ => ValueError end)
  | Arr l => bind (g l) (fun l => Ok (Arr l))
  end.
(* 82-105 with crd_xform and dat_xform; crd = None: both are arr_noop.  An axis that is missing is an error (coordinate.py) *)
Definition xform_common (f : fld) (base target : axis) (unit : cunit) (crd : option (list R -> res (list R))) : res fld :=
  match ind f base with
  | None => ValueError
  | Some d =>
      let a := get_ax f d in
      bind (unit_xform (un a) unit) (fun ux =>
      let unit' := match unit with NoUnit => un a | _ => unit end in
      match eq_axis base target, ux, crd with
      | true, None, None => Ok f
      | _, _, _ =>
          let ux := match ux with None => fun x => x | Some g => g end in
          let cx := match crd with None => fun l => Ok l | Some g => g end in
          bind (xform_vals (fun l => cx (map ux l)) (cv a)) (fun c =>
          let f' := set_ax f d (CAX target unit' c) in
          Ok (match crd with None => f' | Some _ => flip_dat f' (ddat f d) end))
      end)
  end.
(* 47-51, 107-110, 120-123 *)
Definition fld_noop (f : fld) (base target : axis) (unit : cunit) : res fld := xform_common f base target unit None.
(* 21, 33: 90 unless the unit is 'rad' *)
Definition as_unit (u : cunit) : unit_t := match u with URad => Rad | _ => Deg end.
(* 112-118 *)
Definition fld_theta2lat (f : fld) (base target : axis) (unit : cunit) : res fld :=
  xform_common f base target unit (Some (fun l => bind (theta2lat (as_unit unit) l) (fun l => Ok (rev l)))).
(* 125-138 without the warning *)
Definition fld_lat2theta (f : fld) (base target : axis) (unit : cunit) : res fld :=
  xform_common f base target unit (Some (fun l => bind (lat2theta (as_unit unit) l) (fun l => Ok (rev l)))).

(* 200-201, 217-218: the axes a target can be made of and how; the first that the field has is taken *)
Inductive how := Noop | Flip.
Definition mapping := list (axis * list (axis * how)).
Definition map_mapping : mapping := [(Lon, [(Phi, Noop); (Lon, Noop)]); (Lat, [(Theta, Flip); (Lat, Noop)])].
Definition sphere_mapping : mapping := [(Phi, [(Lon, Noop); (Phi, Noop)]); (Theta, [(Lat, Flip); (Theta, Noop)])].
Definition has_axis (l : list axis) (a : axis) : bool := existsb (eq_axis a) l.
(* 163-174: None is the RuntimeError *)
Fixpoint bases (m : mapping) (axes order : list axis) : option (list (axis * (axis * how))) :=
  match m with
  | [] => Some []
  | (t, l) :: m =>
      let b := match find (fun p => has_axis axes (fst p)) l with
               | Some p => Some p
               | None => if has_axis order t then Some (t, Noop) else None
               end in
      match b, bases m axes order with Some p, Some r => Some ((t, p) :: r) | _, _ => None end
  end.
(* 176-177: None is the KeyError *)
Fixpoint plan (b : list (axis * (axis * how))) (order : list axis) : option (list (axis * (axis * how))) :=
  match order with
  | [] => Some []
  | t :: order => match find (fun p => eq_axis (fst p) t) b, plan b order with Some p, Some r => Some (p :: r) | _, _ => None end
  end.
(* 184-185 and field.py 2164-2195: only a reordering of the axes *)
Definition can_transpose (axes order : list axis) : bool := (Nat.eqb (length order) (length axes) && forallb (has_axis axes) order && forallb (has_axis order) axes)%bool.
(* 140-186 for any number of axes, without data: does the conversion of a field with these axes go through?  units is one string *)
Definition convertible (m : mapping) (axes order : list axis) : bool :=
  match bases m axes order with
  | None => false
  | Some b => match plan b order with
              | None => false
              | Some p => let axes' := fold_left (fun axes q => map (fun a => if eq_axis a (fst (snd q)) then fst q else a) axes) p axes in
                          (forallb (fun q => has_axis axes (fst (snd q))) p && can_transpose axes' order)%bool
              end
  end.
(* 2164-2195 for two axes *)
Definition swap_axes (f : fld) : fld :=
  let '(n0, n1, n2) := shape f in
  let g := dat f in
  match lay f with
  | Flat => FLD (ax1 f) (ax0 f) (cell f) (lay f) (n0, n2, n1) (fun k i j => g k j i)
  | _ => FLD (ax1 f) (ax0 f) (cell f) (lay f) (n1, n0, n2) (fun i j k => g j i k)
  end.
Definition step (sphere : bool) (unit : cunit) (f : res fld) (q : axis * (axis * how)) : res fld :=
  let '(target, (base, h)) := q in
  bind f (fun f => match h with
                   | Noop => fld_noop f base target unit
                   | Flip => if sphere then fld_lat2theta f base target unit else fld_theta2lat f base target unit
                   end).
(* 140-186: one string as units *)
Definition convert (sphere : bool) (f : fld) (order : list axis) (unit : cunit) : res fld :=
  match bases (if sphere then sphere_mapping else map_mapping) [nm (ax0 f); nm (ax1 f)] order with
  | None => ValueError
  | Some b =>
      match plan b order with
      | None => ValueError
      | Some p =>
          bind (fold_left (step sphere unit) p (Ok f)) (fun r =>
          match order with
          | [o0; o1] => if (eq_axis o0 (nm (ax0 r)) && eq_axis o1 (nm (ax1 r)))%bool then Ok r
                        else if (eq_axis o0 (nm (ax1 r)) && eq_axis o1 (nm (ax0 r)))%bool then Ok (swap_axes r)
                        else ValueError
          | _ => ValueError
          end)
      end
  end.
(* 188-204, 206-220 *)
Definition as_mapfield (f : fld) (order : list axis) (unit : cunit) : res fld := convert false f order unit.
Definition as_spherefield (f : fld) (order : list axis) (unit : cunit) : res fld := convert true f order unit.

(* np.linspace and the arrays of coordinates; cell centres are averages of nodes *)
Definition nodes (c : cvals) : list R :=
  match c with Lin xl xh n => map (fun i => xl + INR i * ((xh - xl) / INR (n - 1))) (seq 0 n) | Arr l => l end.
Fixpoint midpoints (l : list R) : list R :=
  match l with a :: (b :: _) as l' => (a + b) / 2 :: midpoints l' | _ => [] end.
Definition crd (f : fld) (second : bool) : list R :=
  let l := nodes (cv (get_ax f second)) in if cell f then midpoints l else l.
(* 245-249: the default of bounding_lat from the first and last latitude, in degrees *)
Definition default_bounding_lat (xl xh : R) : R := if Rle_dec (101 / 100 * PI) (Rabs (xh - xl)) then 40 else 90.
(* 251-269: does the check of the hemisphere raise?  lat are the latitudes of the data *)
Definition polar_raises (lat : list R) (bounding_lat : R) (h : hemisphere) : bool :=
  let b := Rabs (PI / 180 * bounding_lat) in
  match h with
  | North => forallb (fun l => ltb l b) lat
  | South => forallb (fun l => ltb (- b) l) lat
  | NoHemisphere => true
  end.
(* 272-279: the second axis of the plot *)
Definition polar_vals (h : hemisphere) (c : cvals) : cvals :=
  let g x := polar_scale h * x + PI / 2 in
  match c with Lin xl xh n => Lin (g xl) (g xh) n | Arr l => Arr (map g l) end.
(* 282-298: the first axis and the rows of the data after make_periodic *)
Definition make_periodic {A} (c : cvals) (rows : list A) : cvals * list A :=
  match c with
  | Lin xl xh n => if ltb (xh - xl) (2 * PI - 1 / 10 ^ 5) then (Lin xl (xh + (xh - xl) / INR n) n, rows ++ firstn 1 rows) else (c, rows)
  | Arr l => if ltb (last l 0 - hd 0 l) (2 * PI - 1 / 10 ^ 5) then (Arr (l ++ [hd 0 l + 2 * PI]), rows ++ firstn 1 rows) else (c, rows)
  end.
