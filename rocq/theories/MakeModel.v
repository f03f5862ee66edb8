(** Model of making fields from arrays: viscid/field.py [arrays2field] 42-99, [dat2field] 101-127, [full] 129-193, [wrap_field] 362-394, with viscid/coordinate.py [arrays2crds] 44-98 and the shapes of
    coordinates 347-353, 1279, 1290.  Fields and how they find their layout are those of FldModel, single axes those of CrdModel.

    SIMPLIFICATIONS: [center=None] in [arrays2field] (as_centered is in ViewModel); the type of the coordinates is found automatically; no times as coordinates; rationals instead of floats. *)
From Verif Require Import CrdModel FldModel.
From Coq Require Import List ZArith Bool.
Import ListNotations.
Open Scope Z_scope.

Inductive centre := Node | Cell.
(** coordinates: whether they are uniform, and the nodes of each axis *)
Record crds := Crds { uniform : bool; axes : list (list Q) }.
(* coordinate.py 72-83 *)
Definition even (x : list Q) : bool := (length x <=? 1)%nat || allclose (qat (np_diff x) 0) (np_diff x).
(* 44-98; None: IndexError.  63: zip with the six names *)
Definition arrays2crds (arrs : list (list Q)) : option crds :=
  let arrs := firstn 6 arrs in
  if (length arrs =? 0)%nat || existsb (fun x => (length x =? 0)%nat) arrs then None
  else if forallb even arrs then Some (Crds true (map (fun x => linspace (qat x 0) (qat x (length x - 1)) (length x)) arrs))
  else Some (Crds false arrs).
(* 347-353, 1279, 1290: the places of an axis as far as they are counted; a uniform axis with one node has no cells (1265), another has one (499) *)
Definition places (c : crds) (k : centre) (x : list Q) : list Q :=
  match k with Node => x | Cell => if uniform c && (length x =? 1)%nat then [] else cells x end.
Definition shape_of (c : crds) (k : centre) : list Z := map (fun x => Z.of_nat (length (places c k x))) (axes c).

Section V.
Context {V : Type}.
Record made := Made { at_ : centre; on : crds; fld_ : fld Q V }.
(* field.py 362-394 and the constructor: arguments called layout are kept as meta data only (563-566) *)
Definition wrap_field (dat : nd V) (c : crds) (vec : bool) (k : centre) : made :=
  let size := FldModel.prod (shape dat) in
  let s := FldModel.prod (shape_of c k) in
  let vec := vec || ((size mod s =? 0) && (1 <? size / s)) in
  Made k c (F vec (combine (seq 0 (length (axes c))) (map (places c k) (axes c))) (map (fun _ => false) (axes c)) (SArr dat) false None).
(* 60-99; None: ValueError *)
Definition arrays2field (arrs : list (list Q)) (dat : nd V) : option made :=
  match arrays2crds arrs with
  | None => None
  | Some c =>
      let nc := shape_of c Node in let cc := shape_of c Cell in let d := shape dat in
      if (length d =? length nc)%nat then
        if leqb nc d then Some (wrap_field dat c false Node)
        else if leqb cc d then Some (wrap_field dat c false Cell)
        else None
      else if (length d =? S (length nc))%nat then
        if leqb nc (removelast d) then Some (wrap_field dat c true Node)
        else if leqb cc (removelast d) then Some (wrap_field dat c true Cell)
        else if leqb nc (tl d) then Some (wrap_field dat c true Node)
        else if leqb cc (tl d) then Some (wrap_field dat c true Cell)
        else None
      else None
  end.
Definition arange (n : Z) : list Q := map (fun i => inject_Z (Z.of_nat i)) (seq 0 (Z.to_nat n)).
(* 113-127: [lay] is None for a scalar *)
Definition dat2field (dat : nd V) (lay : option layout) : option made :=
  let s := match lay with None => shape dat | Some LInter => removelast (shape dat) | Some _ => tl (shape dat) end in
  arrays2field (map arange s) dat.
(* 164-193: [comps] is the layout and the number of components of a vector *)
Definition full (arrs : list (list Q)) (v : V) (k : centre) (comps : option (layout * Z)) : option made :=
  match arrays2crds arrs with
  | None => None
  | Some c =>
      let s := shape_of c k in
      let sh := match comps with None => s | Some (LInter, m) => s ++ [m] | Some (_, m) => m :: s end in
      Some (wrap_field (ND sh (fun _ => v)) c (match comps with None => false | Some _ => true end) k)
  end.
(* 157-158: integers for the axes *)
Definition full_ints (ns : list Z) := full (map arange ns).
End V.
