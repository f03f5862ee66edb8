(** Model of reading and assigning through a selection, field[selection] and field[selection] = value:
    viscid/field.py 1087-1273 (_prepare_slice, _finalize_slice), 1275-1290 (slice), 1353-1370 (set_slice), 1795-1800, 958-1010
    (_dat_to_ndarray, _reshape_ndarray_to_crds) and 2255-2260, with the indexing of numpy arrays on which they rest.

    SIMPLIFICATIONS: the selection is already a list with one integer, slice, index array or newaxis per axis, as [fill_nd_sel_list] and
    [std_sel2index] give it (C09, C10).  The data is in memory, node centred, without reflected axes and without a function that transforms it.
    An array is a shape and a value for every list of indices.  All exceptions are [Err].  The field that a selection of all components
    of a vector gives is left at the array that is read (how it finds its layout again is C37); names, units and other attributes of
    the result are left out, and so is h5py data (C39). *)
From Verif Require Import PySlice.
From Coq Require Import ZArith List Bool Lia.
Import ListNotations.
Open Scope Z_scope.

(** ** numpy's indexing, as documented for numpy arrays *)
Inductive item := II (i : Z) | IS (s : pslice) | IN | IA (l : list Z).   (* an integer, a slice, np.newaxis, an index array *)
(* what an item is for an axis of known length: indices from 0 *)
Inductive dim := DI (k : Z) | DS (ks : list Z) | DN | DA (ks : list Z).
Record nda (V : Type) := ND { nshape : list Z; nval : list Z -> V }.
Arguments ND {V} _ _. Arguments nshape {V} _. Arguments nval {V} _ _.

Definition zlen {A : Type} (l : list A) : Z := Z.of_nat (length l).
Definition zseq (n : Z) : list Z := map Z.of_nat (seq 0 (Z.to_nat n)).
Definition zat (l : list Z) (i : Z) : Z := nth (Z.to_nat i) l 0.
(* an integer index; None: IndexError *)
Definition norm (n i : Z) : option Z := if (- n <=? i) && (i <? n) then Some (if i <? 0 then i + n else i) else None.
Fixpoint norms (n : Z) (l : list Z) : option (list Z) :=
  match l with
  | [] => Some []
  | i :: t => match norm n i, norms n t with Some k, Some ks => Some (k :: ks) | _, _ => None end
  end.
Definition ocons {A : Type} (x : option A) (l : option (list A)) : option (list A) :=
  match x, l with Some a, Some t => Some (a :: t) | _, _ => None end.
(* axes for which nothing is given are taken whole *)
Fixpoint resolve (sh : list Z) (its : list item) : option (list dim) :=
  match its with
  | [] => Some (map (fun n => DS (zseq n)) sh)
  | IN :: t => ocons (Some DN) (resolve sh t)
  | it :: t =>
    match sh with
    | [] => None
    | n :: sh' =>
      ocons (match it with
             | II i => option_map DI (norm n i)
             | IS s => option_map DS (sel n s)
             | IN => None
             | IA l => option_map DA (norms n l)
             end) (resolve sh' t)
    end
  end.
Definition is_array (d : dim) : bool := match d with DA _ => true | _ => false end.
(* integers count as index arrays when there is an index array *)
Definition is_adv (d : dim) : bool := match d with DI _ | DA _ => true | _ => false end.
(* the axes of the result: one per slice, newaxis and index array *)
Fixpoint kept (ds : list dim) : list Z :=
  match ds with
  | [] => []
  | DI _ :: t => kept t
  | DS ks :: t => zlen ks :: kept t
  | DN :: t => 1 :: kept t
  | DA ks :: t => zlen ks :: kept t
  end.
(* index arrays are used side by side, not crossed: this is their common length *)
Fixpoint adv_len (ds : list dim) : option Z :=
  match ds with
  | [] => Some 1
  | DA ks :: t =>
    match adv_len t with
    | Some m => if zlen ks =? m then Some m else if m =? 1 then Some (zlen ks) else if zlen ks =? 1 then Some m else None
    | None => None
    end
  | _ :: t => adv_len t
  end.
Fixpoint lead (p : dim -> bool) (ds : list dim) : nat := match ds with d :: t => if p d then S (lead p t) else O | [] => O end.
(* their axis is where they are if they are next to each other, and the first axis otherwise *)
Definition adv_pos (ds : list dim) : nat :=
  let a := lead (fun d => negb (is_adv d)) ds in
  let r := skipn a ds in
  if forallb (fun d => negb (is_adv d)) (skipn (lead is_adv r) r) then a else O.
Fixpoint basic_lens (ds : list dim) : list Z :=
  match ds with
  | [] => []
  | DS ks :: t => zlen ks :: basic_lens t
  | DN :: t => 1 :: basic_lens t
  | _ :: t => basic_lens t
  end.
Definition insert_at {A : Type} (n : nat) (x : A) (l : list A) : list A := firstn n l ++ x :: skipn n l.
(* the element that is read: j along the index arrays, r along the other axes *)
Fixpoint dsrc (ds : list dim) (j : Z) (r : list Z) : list Z :=
  match ds with
  | [] => []
  | DI k :: t => k :: dsrc t j r
  | DA ks :: t => zat ks (if zlen ks =? 1 then 0 else j) :: dsrc t j r
  | DS ks :: t => zat ks (hd 0 r) :: dsrc t j (tl r)
  | DN :: t => dsrc t j (tl r)
  end.
Definition plan (ds : list dim) : option (list Z * (list Z -> list Z)) :=
  if existsb is_array ds
  then match adv_len ds with
       | Some n => let p := adv_pos ds in
                   Some (insert_at p n (basic_lens ds), fun r => dsrc ds (nth p r 0) (firstn p r ++ skipn (S p) r))
       | None => None
       end
  else Some (kept ds, dsrc ds 0).
(* arr[items] *)
Definition getitem {V : Type} (a : nda V) (its : list item) : option (nda V) :=
  match resolve (nshape a) its with
  | Some ds => match plan ds with Some (sh, src) => Some (ND sh (fun r => nval a (src r))) | None => None end
  | None => None
  end.
(* every list of indices of an array, the last index runs fastest *)
Fixpoint all_idx (sh : list Z) : list (list Z) :=
  match sh with [] => [[]] | n :: t => flat_map (fun k => map (cons k) (all_idx t)) (zseq n) end.
Definition upd {V : Type} (f : list Z -> V) (i : list Z) (x : V) : list Z -> V := fun k => if list_eq_dec Z.eq_dec k i then x else f k.
(* broadcasting of the value, axes from the last; on reversed lists *)
Fixpoint bc_ok (vs rs : list Z) : bool :=
  match vs, rs with
  | [], _ => true
  | n :: t, m :: s => ((n =? m) || (n =? 1)) && bc_ok t s
  | n :: t, [] => (n =? 1) && bc_ok t []
  end.
Fixpoint bc_idx (vs r : list Z) : list Z :=
  match vs with
  | [] => []
  | n :: t => match r with [] => 0 :: bc_idx t [] | i :: s => (if n =? 1 then 0 else i) :: bc_idx t s end
  end.
Definition broadcast {V : Type} (v : nda V) (rs : list Z) : option (list Z -> V) :=
  if bc_ok (rev (nshape v)) (rev rs) then Some (fun r => nval v (rev (bc_idx (rev (nshape v)) (rev r)))) else None.
(* arr[items] = value *)
Definition setitem {V : Type} (a : nda V) (its : list item) (v : nda V) : option (nda V) :=
  match resolve (nshape a) its with
  | Some ds =>
    match plan ds with
    | Some (sh, src) =>
      match broadcast v sh with
      | Some g => Some (ND (nshape a) (fold_left (fun f r => upd f (src r) (g r)) (all_idx sh) (nval a)))
      | None => None
      end
    | None => None
    end
  | None => None
  end.
(* arr.reshape(shape), on C order *)
Definition size (sh : list Z) : Z := fold_right Z.mul 1 sh.
Fixpoint ravel (sh r : list Z) : Z :=
  match sh, r with n :: t, i :: s => i * size t + ravel t s | _, _ => 0 end.
Fixpoint unravel (sh : list Z) (k : Z) : list Z :=
  match sh with [] => [] | n :: t => (k / size t) :: unravel t (k mod size t) end.
Definition reshape {V : Type} (a : nda V) (sh : list Z) : option (nda V) :=
  if size (nshape a) =? size sh then Some (ND sh (fun r => nval a (unravel (nshape a) (ravel sh r)))) else None.

(** ** Fields *)
Inductive layout := Scalar | Flat | Interlaced.
Record fld (V : Type) := FL { f_lay : layout; f_dat : nda V }.
Arguments FL {V} _ _. Arguments f_lay {V} _. Arguments f_dat {V} _.
Inductive out (V : Type) := Err | Num (v : V) | Arr (a : nda V).
Arguments Err {V}. Arguments Num {V} _. Arguments Arr {V} _.

(* 1090, 1363-1367: the component, None: slice(None) *)
Definition comp_item (c : option Z) : item := match c with Some i => II i | None => IS (PS None None None) end.
(* 664-681, 700: the spatial shape; one axis of the array is for the components *)
Definition sshape {V : Type} (f : fld V) : list Z :=
  match f_lay f with
  | Scalar => nshape (f_dat f)
  | Flat => tl (nshape (f_dat f))
  | Interlaced => removelast (nshape (f_dat f))
  end.
(* sliceutil.py 991-995 *)
Definition none_item (it : item) : bool :=
  match it with
  | IS (PS None None None) => true
  | IS (PS None None (Some s)) => s =? 1
  | _ => false
  end.
(* 1245-1252: where the component goes when reading; nr_comp of a scalar raises TypeError *)
Definition read_items (l : layout) (its : list item) (c : option Z) : list item :=
  match l with
  | Scalar => its
  | Flat => insert_at 0 (comp_item c) its
  | Interlaced => insert_at (length its) (comp_item c) its
  end.
Definition is_int (it : item) : bool := match it with II _ => true | _ => false end.
(* coordinate.py 643-727: one coordinate array for each axis that is kept; the integers are "reduced" *)
Definition crd_shape {V : Type} (f : fld V) (its : list item) : option (list Z) := option_map kept (resolve (sshape f) its).
Definition reduced (its : list item) : nat := length (filter is_int its).
(* 1257-1272 and 1003-1010: a number if one element is left, otherwise a field whose data is brought to the shape of the coordinates *)
Definition finish {V : Type} (dat : nda V) (nred nslices : nat) (target : list Z) : out V :=
  if (nred =? nslices)%nat || (size (nshape dat) =? 1)
  then Num (nval dat (map (fun _ => 0) (nshape dat)))
  else if list_eq_dec Z.eq_dec (nshape dat) target then Arr dat
  else match reshape dat target with Some a => Arr a | None => Err end.
Definition is_scalar (l : layout) : bool := match l with Scalar => true | _ => false end.
Definition some {A : Type} (o : option A) : bool := match o with Some _ => true | None => false end.
(* 1275-1290, 1101-1109, 1244-1273 *)
Definition read {V : Type} (f : fld V) (its : list item) (c : option Z) : out V :=
  if is_scalar (f_lay f) && some c then Err                                            (* 1092 *)
  else match crd_shape f its with
  | None => Err
  | Some target =>
    if forallb none_item its && negb (some c) then Arr (f_dat f)                        (* 1108 *)
    else match getitem (f_dat f) (read_items (f_lay f) its c) with
    | None => Err
    | Some dat =>
      if is_scalar (f_lay f) || some c
      then finish dat (reduced its) (length (read_items (f_lay f) its c)) target
      else Arr dat
    end
  end.
(* 1353-1370: slices[:nr_comp].count(np.newaxis) compares every item with None, which has no truth value for an index array of more than one element *)
Definition is_new (it : item) : bool := match it with IN => true | _ => false end.
Definition uncountable (it : item) : bool := match it with IA l => 1 <? zlen l | _ => false end.
Definition write_items (l : layout) (nsp : nat) (its : list item) (c : option Z) : option (list item) :=
  match l with
  | Scalar => Some its                                                                  (* 2255: TypeError *)
  | Flat => Some (insert_at 0 (comp_item c) its)
  | Interlaced =>
    let head := firstn nsp its in
    if existsb uncountable head then None
    else Some (insert_at (nsp + length (filter is_new head)) (comp_item c) its)
  end.
Definition write {V : Type} (f : fld V) (its : list item) (c : option Z) (v : nda V) : option (fld V) :=
  if is_scalar (f_lay f) && some c then None
  else match crd_shape f its with
  | None => None
  | Some _ =>
    match write_items (f_lay f) (length (sshape f)) its c with
    | Some items => option_map (FL (f_lay f)) (setitem (f_dat f) items v)
    | None => None
    end
  end.
(* 1114-1119, 1143-1150, 1257-1272: a component of a vector that is still a list of scalar fields.  What the component gives is treated like an array;
   a number has neither .item nor .size nor .dtype *)
Definition read_lazy {V : Type} (comps : list (nda V)) (its : list item) (c : nat) : out V :=
  match nth_error comps c with
  | None => Err
  | Some a =>
    if forallb none_item its then Arr a
    else match crd_shape (FL Scalar a) its, read (FL Scalar a) its None with
    | Some target, Arr dat => finish dat (reduced its) (length its) target
    | _, _ => Err
    end
  end.
(* a number as a value *)
Definition number {V : Type} (x : V) : nda V := ND [] (fun _ => x).
