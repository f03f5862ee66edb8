(** Model of the masks of viscid/dipole.py: [set_in_region] (209-236), [make_spherical_mask] (238-259) and the mask of
    [fill_dipole] (102-105, 144-145).  Numbers are reals: rounding is not modelled.  Fields as in FldModel.v; a mask has
    the centering of the field it is used with, so [as_centered] returns it unchanged. *)
From Verif Require Export ArithModel MapPtsModel.
From Coq Require Import Reals.
Open Scope Z_scope.

(** ** numpy *)
(** [np.choose(m, [x, y])] *)
Definition nd_choose {V} (m : nd bool) (x y : nd V) : option (nd V) :=
  match nd_map2 pair x y with
  | None => None
  | Some p => nd_map2 (fun (b : bool) q => if b then snd q else fst q) m p
  end.
(** [o[...] = r] *)
Definition assign {V} (o r : nd V) : option (nd V) :=
  match bshape (shape o) (shape r) with
  | Some s => if leqb s (shape o) then Some (ND (shape o) (fun js => get r (bidx (shape r) js))) else None
  | None => None
  end.

Section MASK.
Context {C : Type}.
Implicit Types (cs : list (crd C)) (m : fld C bool).

(** [np.choose] with a field as its first argument wraps the result in a field like it (field.py 1906-1907), which is
    read again when it is assigned; [cs] are its coordinates with reflections applied.  Vectors of one component are
    not modelled *)
Definition choose_field {V} cs m (mk : nd bool) (x y : nd V) : option (nd V) :=
  match nd_choose mk x y with
  | None => None
  | Some r => match wrap (f_vec m) cs r None with WFld h => load h | WNum v => Some (ND [] (fun _ => v)) | _ => None end
  end.

(* 209-236: the data of [out]; for out=None it is an array like [a] with whatever was in memory.  [d] is the dtype
   of [a], to which alpha and beta are converted.  None: an exception *)
Definition set_in_region (d : dtype) (alpha beta : R) (a b : fld C R) (mask : option (list (crd C) * fld C bool)) (out : fld C R) : option (nd R) :=
  match load a, load b, load out with
  | Some x, Some y, Some o =>
      match nd_map2 (fun u v => (put d alpha * u + put d beta * v)%R) x y with
      | None => None
      | Some vals =>
          match mask with
          | None => assign o vals
          | Some (cs, m) =>
              match (if f_vec m then as_layout cs (layout_of a) m else WFld m) with        (* 229-230 *)
              | WFld m' =>
                  match load m' with
                  | None => None
                  | Some mk =>
                      match (match choose_field cs m' mk o vals with Some r => assign o r | None => None end) with
                      | Some r => Some r
                      | None =>                                                            (* 233-235 *)
                          match nd_reshape (sshape m' ++ [1]) mk with
                          | Some mk1 => match nd_choose mk1 o vals with Some r => assign o r | None => None end
                          | None => None
                          end
                      end
                  end
              | _ => None
              end
          end
      end
  | _, _, _ => None
  end.

(* 102-105, 144-145: [dip] is the dipole on the whole grid; the mask is true as an object (its length is not zero) *)
Definition fill_masked {V} cs m (b dip : nd V) : option (nd V) :=
  match load m with
  | Some mk => match choose_field cs m mk b dip with Some r => assign b r | None => None end
  | None => None
  end.
End MASK.

(** ** spheres *)
(* np.sum([c**2 for c in crds], axis=0) at one index *)
Definition coord (c : crd R) (j : Z) : R := nth (Z.to_nat j) (snd c) 0%R.
Fixpoint rsq_at (cs : list (crd R)) (js : list Z) : R :=
  match cs, js with c :: cs', j :: js' => (coord c j * coord c j + rsq_at cs' js')%R | _, _ => 0%R end.
Definition between (rmin rmax r2 : R) : bool :=
  (if Rle_dec (rmin * rmin) r2 then true else false) && (if Rlt_dec r2 (rmax * rmax) then true else false).
(* 255-259: node and cell centred fields, one mask for all components *)
Definition spherical_mask (rmin rmax : R) (cs : list (crd R)) : fld R bool :=
  F false cs (map (fun _ => false) cs) (SArr (ND (sshape_of cs) (fun js => between rmin rmax (rsq_at cs js)))) false None.
(* 243-254: edge and face centred fields; [comps i] are the coordinates of component [i], [inter] is the layout *)
Definition spherical_mask_ecfc (rmin rmax : R) (cs : list (crd R)) (comps : nat -> list (crd R)) (inter : bool) : fld R bool :=
  F true cs (map (fun _ => false) cs)
    (SArr (ND (if inter then sshape_of cs ++ [3] else 3 :: sshape_of cs)
              (fun ks => let c := if inter then last ks 0 else hd 0 ks in
                         let js := if inter then removelast ks else tl ks in
                         between rmin rmax (rsq_at (comps (Z.to_nat c)) js)))) false None.
