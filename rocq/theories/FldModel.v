(** Model of the part of viscid/field.py that loads, re-lays out, transposes and slices
    the data of a field: [_detect_layout] (1010-1085), [layout] (600-608), [nr_comps]
    (642-662), [nr_comp] (664-683), [shape] (685-693), [_xyz_src_data] (851-888),
    [_src_data_to_ndarray] (890-944), [_dat_to_ndarray] (946-1008), [_finalize_slice]
    (1097-1277), [wrap] (1814-1893), [transpose] (2164-2186), [transpose_crds]
    (2188-2195), [swapaxes] (2208-2211), [as_layout] (2341-2375), and
    coordinate.py [reflect_fld_arr] (431-446), [reflect_slices] (448-460).

    An array is its shape and the value at every index vector (NdIndex.v), so copies,
    views, element types and memory order are not modelled.  [None] is an exception.
    SIMPLIFICATIONS: numpy's broadcasting of axes of length one in an assignment is
    modelled as an exception; [post_reshape_transform_func] is absent; sources with
    fewer dimensions than the coordinates are covered by the reshape when loading but
    not by the hyperslab read. *)
From Verif Require Export NdIndex.
From Coq Require Import Arith.
Open Scope Z_scope.

(** ** numpy *)
Fixpoint leqb (a b : list Z) : bool :=
  match a, b with
  | [], [] => true
  | x :: a', y :: b' => (x =? y) && leqb a' b'
  | _, _ => false
  end.
Definition prod (l : list Z) : Z := fold_right Z.mul 1 l.
Fixpoint pos (k : nat) (l : list nat) : nat :=                    (* list.index *)
  match l with [] => O | x :: l' => if (x =? k)%nat then O else S (pos k l') end.
(** [a.transpose(axes)]: axis [k] of the result is axis [axes[k]] of [a] *)
Definition unperm (axes : list nat) (js : list Z) : list Z :=
  map (fun k => nth (pos k axes) js 0) (seq 0 (length axes)).
Definition nd_transpose {V} (axes : list nat) (a : nd V) : nd V :=
  ND (map (fun k => nth k (shape a) 0) axes) (fun js => get a (unperm axes js)).
(** [a.T] *)
Definition nd_T {V} (a : nd V) : nd V := ND (rev (shape a)) (fun js => get a (rev js)).
(** [a.reshape(sh)] *)
Fixpoint ravel (sh js : list Z) : Z :=
  match sh, js with _ :: sh', j :: js' => j * prod sh' + ravel sh' js' | _, _ => 0 end.
Fixpoint unravel (sh : list Z) (n : Z) : list Z :=
  match sh with [] => [] | _ :: sh' => n / prod sh' :: unravel sh' (n mod prod sh') end.
Definition nd_reshape {V} (sh : list Z) (a : nd V) : option (nd V) :=
  if leqb (shape a) sh then Some a
  else if prod (shape a) =? prod sh then Some (ND sh (fun js => get a (unravel (shape a) (ravel sh js))))
  else None.
(** [arr[i] = l[i]] for an array with one more axis *)
Definition nd_stack {V} (l : list (nd V)) : option (nd V) :=
  match l with
  | [] => None
  | a :: _ =>
      if forallb (fun b => leqb (shape b) (shape a)) l
      then Some (ND (Z.of_nat (length l) :: shape a)
                    (fun js => match js with i :: r => get (nth (Z.to_nat i) l a) r | [] => get a [] end))
      else None
  end.

(** ** fields *)
Inductive layout := LScalar | LFlat | LInter | LOther.
Definition lay_eqb (a b : layout) : bool :=
  match a, b with LScalar, LScalar | LFlat, LFlat | LInter, LInter | LOther, LOther => true | _, _ => false end.

Inductive source (V : Type) := SArr (a : nd V) | SList (l : list (nd V)).
Arguments SArr {V} _. Arguments SList {V} _.

(** a coordinate axis: its name and the places of the values of this centering *)
Definition crd (C : Type) := (nat * list C)%type.

(** [f_force = None] is LAYOUT_DEFAULT *)
Record fld (C V : Type) := F {
  f_vec : bool; f_crds : list (crd C); f_refl : list bool; f_src : source V; f_zyx : bool; f_force : option layout }.
Arguments F {C V} _ _ _ _ _ _. Arguments f_vec {C V} _. Arguments f_crds {C V} _. Arguments f_refl {C V} _.
Arguments f_src {C V} _. Arguments f_zyx {C V} _. Arguments f_force {C V} _.

Section FIELD.
Context {C V : Type}.
Implicit Types (f : fld C V) (a : nd V) (sh dat : list Z).

Definition sshape_of (cs : list (crd C)) : list Z := map (fun c => Z.of_nat (length (snd c))) cs.
Definition sshape f : list Z := sshape_of (f_crds f).                                          (* 703-719 *)
Definition native_sshape f : list Z := if f_zyx f then rev (sshape f) else sshape f.           (* 721-726 *)

(* field.py 1042-1046: drop axes of length one while there are too many *)
Fixpoint remove1 sh : list Z := match sh with [] => [] | x :: r => if x =? 1 then r else x :: remove1 r end.
Fixpoint trim (fuel : nat) sh dat : list Z :=
  match fuel with
  | O => sh
  | S k => if (length dat <? S (length sh))%nat && existsb (Z.eqb 1) sh then trim k (remove1 sh) dat else sh
  end.
Definition gt1 (l : list Z) : list Z := filter (fun x => 1 <? x) l.

(* field.py 1031-1085, for an array; line 1054 makes sshape2 from dat_shape *)
Definition detect sh dat : layout :=
  if leqb dat sh then LScalar
  else
    let ss := trim (length sh) sh dat in
    let dat2 := gt1 dat in
    let sshape2 := gt1 dat in
    if leqb dat ss then LScalar
    else if leqb (tl dat) ss then LFlat
    else if leqb (removelast dat) ss || leqb (removelast dat2) sshape2 then LInter
    else if hd 0 dat =? prod ss then LInter
    else if last dat 0 =? prod ss then LFlat
    else if leqb dat2 sshape2 then LScalar
    else if leqb (tl dat2) sshape2 then LFlat
    else if leqb (removelast dat2) sshape2 then LInter
    else LOther.

Definition src_layout f : layout :=                                                            (* 1023-1033 *)
  match f_src f with SList _ => LFlat | SArr a => detect (native_sshape f) (shape a) end.
Definition layout_of f : layout := match f_force f with Some l => l | None => src_layout f end. (* 600-608 *)

Definition nr_comps f : option Z :=                                                            (* 642-662, 2262 *)
  if negb (f_vec f) then Some 0
  else match src_layout f with
       | LInter => match f_src f with SArr a => Some (last (shape a) 0) | SList _ => None end
       | LFlat => match f_src f with SArr a => Some (hd 0 (shape a)) | SList l => Some (Z.of_nat (length l)) end
       | LScalar => Some 1
       | LOther => None
       end.
(** [None]: a scalar field has no component axis (TypeError, always caught) *)
Definition nr_comp f : option nat :=                                                           (* 664-683, 2257 *)
  if negb (f_vec f) then None
  else match layout_of f with LFlat => Some O | _ => Some (length (f_crds f)) end.

Fixpoint insert_at {X} (i : nat) (x : X) (l : list X) : list X :=                              (* list.insert *)
  match i, l with
  | O, _ => x :: l
  | S _, [] => [x]
  | S i', y :: l' => y :: insert_at i' x l'
  end.
Fixpoint remove_val (x : nat) (l : list nat) : option (list nat) :=                            (* list.remove *)
  match l with
  | [] => None
  | y :: l' => if (y =? x)%nat then Some l' else option_map (cons y) (remove_val x l')
  end.
Definition fshape f : option (list Z) :=                                                       (* 685-693 *)
  match nr_comp f, nr_comps f with
  | None, _ => Some (sshape f)
  | Some k, Some n => Some (insert_at k n (sshape f))
  | _, _ => None
  end.

(* field.py 851-888 *)
Definition xyz_src f : option (source V) :=
  if f_zyx f then
    match f_src f with
    | SList l => Some (SList (map nd_T l))
    | SArr a =>
        let ax := seq 0 (length (shape a)) in
        match nr_comps f with
        | None => None
        | Some n =>
            if 0 <? n then
              match nr_comp f with
              | None => None
              | Some k => match remove_val k ax with
                          | None => None
                          | Some r => Some (SArr (nd_transpose (insert_at k k (rev r)) a))
                          end
              end
            else Some (SArr (nd_transpose (rev ax) a))
        end
    end
  else Some (f_src f).

(* coordinate.py 431-446: [arr[first][second]] of the reversed axes *)
Definition reflect_arr f a : option (nd V) :=
  let '(sh, rv) := match nr_comp f, nr_comps f with
                   | Some k, Some n => (insert_at k n (sshape f), insert_at k false (f_refl f))
                   | _, _ => (sshape f, f_refl f)
                   end in
  match make_fwd_slice sh [] rv with
  | Err _ => None
  | Ok (first, second) => match nd_index a first with None => None | Some b => nd_index b second end
  end.

(* field.py 946-1008 *)
Definition dat_to_nd f (s : source V) : option (nd V) :=
  match match s with SArr a => Some a | SList l => nd_stack l end, fshape f with
  | Some a, Some sh => match nd_reshape sh a with Some b => reflect_arr f b | None => None end
  | _, _ => None
  end.

(* field.py 890-944 *)
Definition load f : option (nd V) :=
  let sl := src_layout f in
  let keep := match f_force f with None => true | Some l => lay_eqb l sl end in
  if keep || lay_eqb sl LOther then
    match xyz_src f with Some s => dat_to_nd f s | None => None end
  else
    match f_force f, nr_comps f, fshape f, xyz_src f with
    | Some LFlat, Some n, Some sh, Some (SArr a) =>                                            (* 911-922 *)
        if negb (lay_eqb sl LInter) then None
        else if leqb (removelast (shape a)) (tl sh) && (n <=? last (shape a) 0)
        then dat_to_nd f (SArr (ND sh (fun js => match js with i :: r => get a (r ++ [i]) | [] => get a [] end)))
        else None
    | Some LInter, Some n, Some sh, Some s =>                                                  (* 924-936 *)
        if negb (lay_eqb sl LFlat) then None
        else
          match match s with
                | SArr a => if leqb (tl (shape a)) (removelast sh) && (n <=? hd 0 (shape a)) then Some a else None
                | SList l => match nd_stack l with
                             | Some a => if leqb (tl (shape a)) (removelast sh) then Some a else None
                             | None => None
                             end
                end with
          | Some a => dat_to_nd f (SArr (ND sh (fun js => get a (last js 0 :: removelast js))))
          | None => None
          end
    | _, _, _, _ => None
    end.

(** the coordinates with reflections applied, field.py 746-750; the places of a
    reflected axis are [refl_crd] of the stored ones (coordinate.py 428-429, 474) *)
Definition reflected (refl_crd : list C -> list C) f : list (crd C) :=
  map (fun p => if snd p : bool then (fst (fst p), refl_crd (snd (fst p))) else fst p)
      (combine (f_crds f) (f_refl f)).

(** the result of [wrap]: a number if the array has one element; the first component of a
    field with one component; else a field *)
Inductive wrapped := WNum (v : V) | WComp0 (f : fld C V) | WFld (f : fld C V) | WErr.

(* field.py 1814-1893 with the context entries used by the callers below *)
Definition wrap (vec : bool) (cs : list (crd C)) a (force : option layout) : wrapped :=
  if prod (shape a) =? 1 then WNum (get a (map (fun _ => 0) (shape a)))
  else
    let sh := sshape_of cs in
    let v := if leqb (shape a) sh then false
             else if leqb (tl (shape a)) sh || leqb (removelast (shape a)) sh then true
             else vec in
    let f := F v cs (map (fun _ => false) cs) (SArr a) false force in
    match nr_comps f with
    | None => WErr
    | Some n => if n =? 1 then WComp0 f else WFld f
    end.

(* field.py 2341-2375 with force_c_contiguous=True: copies are not modelled.
   [cs] are the field's coordinates with reflections applied *)
Definition as_layout (cs : list (crd C)) (to : layout) f : wrapped :=
  if lay_eqb (layout_of f) to then WFld f
  else match load f with None => WErr | Some a => wrap (f_vec f) cs a (Some to) end.

(* field.py 2164-2186; [axes] as given to numpy, not negative *)
Definition transpose (cs : list (crd C)) (axes : list nat) f : wrapped :=
  let ndims := match nr_comp f with None => length (f_crds f) | Some _ => S (length (f_crds f)) end in
  if negb (length axes =? ndims)%nat then WErr
  else
    match load f, nr_comps f with
    | Some a, Some n =>
        match (if n =? 0 then Some axes
               else match nr_comp f with
                    | None => None
                    | Some k => option_map (map (fun i => if (k <? i)%nat then (i - 1)%nat else i)) (remove_val k axes)
                    end) with
        | None => WErr
        | Some caxes =>
            wrap (f_vec f) (map (fun i => nth i cs (O, [])) caxes) (nd_transpose axes a) None
        end
    | _, _ => WErr
    end.

(* field.py 2188-2195 with the axes given as positions *)
Definition transpose_crds (cs : list (crd C)) (axes : list nat) f : wrapped :=
  match nr_comps f with
  | None => WErr
  | Some n =>
      if n =? 0 then transpose cs axes f
      else match nr_comp f with
           | None => WErr
           | Some k => transpose cs (insert_at k k (map (fun i => if (k <=? i)%nat then S i else i) axes)) f
           end
  end.

(* field.py 2208-2211, not negative *)
Definition set_nth {X} (i : nat) (x : X) (l : list X) : list X := firstn i l ++ x :: skipn (S i) l.
Definition swapaxes (cs : list (crd C)) (i j : nat) f : wrapped :=
  let n := match nr_comp f with None => length (f_crds f) | Some _ => S (length (f_crds f)) end in
  if ((i <? n) && (j <? n))%nat then transpose cs (set_nth j i (set_nth i j (seq 0 n))) f else WErr.

(** ** slicing, field.py 1097-1277, up to the sliced array *)
Definition hyper := option (nd V).

(** the component slice: [CNone] for scalar fields, a whole slice, or one component *)
Inductive cslice := CSlice (s : pslice) | CIdx (i : Z).
Definition centry (c : cslice) : entry := match c with CSlice s => ESlice s | CIdx i => EInt i end.
Definition single (c : cslice) : bool := match c with CIdx _ => true | _ => false end.

(* sliceutil.py 983-985 with cull_second=False: [None] for dropped axes *)
Definition keep_second (ds : list second) : list (option entry) :=
  map (fun d => match d with
                | SFwd => Some (ESlice full_fwd) | SRev => Some (ESlice full_rev)
                | SDrop => None | SNew => Some ENew end) ds.
Definition make_fwd_slice_keep (sh : list Z) (es : list entry) (reverse : list bool)
  : option (list entry * list (option entry)) :=
  let sh := insert_newaxes sh es in
  let es := es ++ repeat (ESlice (PS None None None)) (length sh - length es) in
  let reverse := reverse ++ repeat false (length es - length reverse) in
  match fwd_loop es sh reverse with
  | Err _ => None
  | Ok (fs, ds) => Some (final_first fs, keep_second ds)
  end.
Definition cull (l : list (option entry)) : list entry :=
  flat_map (fun o => match o with Some e => [e] | None => [] end) l.

(* field.py 1151-1251: the hyperslab read *)
Definition slice_hyper f (slices : list entry) (comp : cslice) : option (nd V) :=
  match f_src f, make_fwd_slice_keep (sshape f) slices (f_refl f) with
  | SArr a, Some (first, second) =>
      let nfirst := if f_zyx f then rev first else first in
      let nsecond := if f_zyx f then rev second else second in
      let '(nfirst, nsecond) :=
        match nr_comp f with
        | None => (nfirst, nsecond)
        | Some k =>
            let k' := match k with O => O | S _ => length first end in                         (* 1182-1185 *)
            (* 1186-1190: without zyx_native both names are the same list, so the component
               slice is inserted twice *)
            if f_zyx f
            then (insert_at k' (centry comp) nfirst,
                  if single comp then nsecond else insert_at k' (Some (ESlice (PS None None None))) nsecond)
            else (insert_at k' (centry comp) (insert_at k' (centry comp) nfirst),
                  if single comp then nsecond
                  else insert_at k' (Some (ESlice (PS None None None)))
                         (insert_at k' (Some (ESlice (PS None None None))) nsecond))
        end in
      (* 1196-1206, for sources with as many axes as the field *)
      if negb (length (shape a) =? length nfirst)%nat then None
      else
        match nd_index a nfirst with
        | None => None
        | Some b =>
            match nd_index b (cull nsecond) with
            | None => None
            | Some d =>
                if f_zyx f then                                                                (* 1221-1233 *)
                  match nr_comps f with
                  | None => None
                  | Some n =>
                      if negb (n =? 0) && negb (single comp) then
                        let m := length (shape d) in
                        match nr_comp f with
                        | Some O => Some (nd_transpose (O :: rev (seq 1 (m - 1))) d)
                        | _ => Some (nd_transpose (rev (seq 0 (m - 1)) ++ [(m - 1)%nat]) d)
                        end
                      else Some (nd_T d)
                  end
                else Some d
            end
        end
  | _, _ => None
  end.

(* field.py 1246-1256: the fallback, and what a loaded field does *)
Definition slice_loaded f (slices : list entry) (comp : cslice) : option (nd V) :=
  match load f with
  | None => None
  | Some d =>
      match nr_comp f with
      | None => nd_index d slices
      | Some k => nd_index d (insert_at (match k with O => O | S _ => length slices end) (centry comp) slices)
      end
  end.
End FIELD.
