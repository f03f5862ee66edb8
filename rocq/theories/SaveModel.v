(** Model of saving fields to a file and loading them again: viscid/readers/numpy_binary.py [FileNumpyNPZ] (77-195) and
    viscid/readers/hdf5.py [FileHDF5.save_fields] (227-329) with its reader viscid/readers/xdmf.py [_parse_grid] (184-216),
    [_parse_geometry] (266-279), [_parse_attribute] (403-419), [_parse_dataitem] (421-460).

    Values and coordinates are of one type [V].  Arrays and fields as in FldModel.v.  A file is what np.savez or h5py
    keep: a dictionary from names to arrays.  SIMPLIFICATIONS: the time, the coordinate system, units and other meta
    data are absent; compression does not change an array; hdf5 paths are plain strings (names with '/' make groups in
    hdf5, they are excluded in the theorems); a field name that is not a plain xml attribute value is an error of the
    xml parser; arrays are read when the file is loaded, not later. *)
From Coq Require Import String Ascii.
From Verif Require Export FldModel Dict.
Open Scope Z_scope.

Inductive center := Node | Cell | Face | Edge.
Definition center_eqb (a b : center) : bool :=
  match a, b with Node, Node | Cell, Cell | Face, Face | Edge, Edge => true | _, _ => false end.
(** numpy's kinds of numbers *)
Inductive kind := KFloat | KInt | KUInt | KBool | KComplex.

(** the names of the axes; in FldModel.v an axis is a number *)
Definition axnames : list string := ["x"; "y"; "z"; "phi"; "theta"; "r"; "lon"; "lat"; "t"]%string.
Definition axname (k : nat) : string := nth k axnames ""%string.
Fixpoint spos (s : string) (l : list string) : nat :=
  match l with [] => O | x :: l' => if String.eqb s x then O else S (spos s l') end.
Definition axof (s : string) : nat := spos s axnames.

Section SAVE.
Context {V : Type}.
(** the places of the values of a centering along an axis, from the nodes (coordinate.py, see CrdModel.v) *)
Variable places : center -> list V -> list V.

(** a field to save: [s_nodes] are the nodes of [fld.crds] (with reflections applied) *)
Record sfield := SF { s_center : center; s_nodes : list (crd V); s_fld : fld V V; s_kind : kind }.
Inductive entry := ACrd (l : list V) | AData (a : nd V) | ANames (l : list string).
Definition archive := list (string * entry).
Notation aget := (dget string_dec).
Notation aset := (dset string_dec).

Definition placed (c : center) (nodes : list (crd V)) : list (crd V) := map (fun ax => (fst ax, places c (snd ax))) nodes.

(** ** npz *)
Definition key_crds : string := "crd_names".                                               (* 82 *)
Definition key_flds (c : center) : string :=                                               (* 83-86 *)
  match c with Node => "field_names_nc" | Cell => "field_names_cc" | Face => "field_names_fc" | Edge => "field_names_ec" end.
Definition centers : list center := [Node; Cell; Face; Edge].

(* 186-188 *)
Fixpoint put_flds (d : archive) (flds : list (string * sfield)) : option archive :=
  match flds with
  | [] => Some d
  | (name, f) :: r => match load (s_fld f) with Some a => put_flds (aset d name (AData a)) r | None => None end
  end.
Definition names_of (c : center) (flds : list (string * sfield)) : list string :=
  map fst (filter (fun nf => center_eqb (s_center (snd nf)) c) flds).
(* 155-195 for a dictionary of fields; 159-163: a list of fields becomes one.  np.savez calls its first argument [file] *)
Definition save_npz (flds : list (string * sfield)) : option archive :=
  match flds with
  | [] => None                                                                             (* 156 *)
  | (_, f0) :: _ =>
      let d := fold_left (fun d ax => aset d (axname (fst ax)) (ACrd (snd ax))) (s_nodes f0) [] in
      let d := aset d key_crds (ANames (map (fun ax => axname (fst ax)) (s_nodes f0))) in
      match put_flds d flds with
      | None => None
      | Some d =>
          let d := fold_left (fun d c => aset d (key_flds c) (ANames (names_of c flds))) centers d in
          if dmem string_dec d "file"%string then None else Some d
      end
  end.

(* list.remove *)
Fixpoint sremove (s : string) (l : list string) : option (list string) :=
  match l with
  | [] => None
  | x :: r => if String.eqb s x then Some r else option_map (cons x) (sremove s r)
  end.
Fixpoint sremoves (ss l : list string) : option (list string) :=
  match ss with [] => Some l | s :: ss' => match sremove s l with Some l' => sremoves ss' l' | None => None end end.

(* an array read as coordinates or as data *)
Definition as_list (e : entry) : option (list V) :=
  match e with
  | ACrd l => Some l
  | AData a => match shape a with [n] => Some (map (fun i => get a [Z.of_nat i]) (seq 0 (Z.to_nat n))) | _ => None end
  | ANames _ => None
  end.
Definition as_data (e : entry) : option (nd V) := match e with AData a => Some a | _ => None end.

(* 91-100 *)
Definition lazy_fld (d : archive) (nodes : list (crd V)) (c : center) (name : string) : option (string * (center * fld V V)) :=
  match aget d name with
  | None => None
  | Some e =>
      match as_data e with
      | None => None
      | Some a =>
          let mk vec := Some (name, (c, F vec (placed c nodes) (map (fun _ => false) nodes) (SArr a) false None)) in
          if (length (shape a) =? length nodes)%nat then mk false
          else if (length (shape a) =? S (length nodes))%nat then mk true
          else None
      end
  end.
Fixpoint lazy_flds (d : archive) (nodes : list (crd V)) (c : center) (names : list string) : option (list (string * (center * fld V V))) :=
  match names with
  | [] => Some []
  | n :: r => match lazy_fld d nodes c n, lazy_flds d nodes c r with Some f, Some fs => Some (f :: fs) | _, _ => None end
  end.
Fixpoint read_nodes (d : archive) (names : list string) : option (list (crd V)) :=
  match names with
  | [] => Some []
  | n :: r => match aget d n with
              | None => None
              | Some e => match as_list e, read_nodes d r with Some l, Some cs => Some ((axof n, l) :: cs) | _, _ => None end
              end
  end.
(* 126-139 *)
Fixpoint read_centers (d : archive) (nodes : list (crd V)) (cs : list center) (keys : list string)
  : option (list (string * (center * fld V V)) * list string) :=
  match cs with
  | [] => Some ([], keys)
  | c :: cs' =>
      match (match aget d (key_flds c) with
             | None => Some ([], keys)
             | Some (ANames l) => match sremove (key_flds c) keys with Some k => Some (l, k) | None => None end
             | Some _ => None
             end) with
      | None => None
      | Some (names, keys) =>
          match lazy_flds d nodes c names, sremoves names keys with
          | Some fs, Some keys => match read_centers d nodes cs' keys with Some (r, k) => Some (fs ++ r, k) | None => None end
          | _, _ => None
          end
      end
  end.
(* 102-147 *)
Definition load_npz (d : archive) : option (list (string * (center * fld V V))) :=
  let keys := dkeys d in
  let fallback := Some (filter (dmem string_dec d) ["x"; "y"; "z"]%string, keys) in
  match (match aget d key_crds with                                                        (* 109-118 *)
         | Some (ANames l) => if forallb (dmem string_dec d) l
                              then match sremove key_crds keys with Some k => Some (l, k) | None => None end
                              else fallback
         | _ => fallback
         end) with
  | None => None
  | Some (crd_names, keys) =>
      match read_nodes d crd_names, sremoves crd_names keys with
      | Some nodes, Some keys =>
          match read_centers d nodes centers keys with
          | Some (fs, rest) => match lazy_flds d nodes Node rest with Some gs => Some (fs ++ gs) | None => None end  (* 141-144 *)
          | None => None
          end
      | _, _ => None
      end
  end.

(** ** hdf5 and xdmf *)
Definition group (c : center) : string :=                                                  (* hdf5.py 169-172 *)
  match c with Node => "/flds_nc" | Cell => "/flds_cc" | Face => "/flds_fc" | Edge => "/flds_ec" end.
Definition loc_of (c : center) (name : string) : string := (group c ++ "/" ++ name)%string.
(** an Attribute of the xdmf file *)
Record xattr := XA { xa_name : string; xa_vec : bool; xa_center : center; xa_number : string; xa_text : string }.
Record xdmf := XD { x_crds : list string; x_attrs : list xattr }.
(* 317: dtype.name without digits, .title() *)
Definition number_type (k : kind) : string :=
  match k with KFloat => "Float" | KInt => "Int" | KUInt => "Uint" | KBool => "Bool" | KComplex => "Complex" end.

Definition crd_loc (n : string) : string := ("/crds/" ++ n)%string.
(* 268-275 *)
Fixpoint put_h5 (d : archive) (flds : list (string * sfield)) : option archive :=
  match flds with
  | [] => Some d
  | (name, f) :: r =>
      match load (s_fld f), aget d (loc_of (s_center f) name) with
      | Some a, None =>
          if prod (shape a) =? 1 then None                                                 (* 316: its transpose is a number *)
          else put_h5 (aset d (loc_of (s_center f) name) (AData (nd_T a))) r
      | _, _ => None
      end
  end.
(* 315-326: the type of the field is that of its flat transpose, which is not modelled; the dimensions written are not
   read for hdf5 *)
Definition attr_of (base : string) (nf : string * sfield) : xattr :=
  let '(name, f) := nf in
  XA name (f_vec (s_fld f)) (s_center f) (number_type (s_kind f)) ("./" ++ base ++ ":" ++ loc_of (s_center f) name)%string.
(* 227-329; [zero] is the number 0.0, [base] the name of the hdf5 file without its directory *)
Definition save_h5 (zero : V) (base : string) (flds : list (string * sfield)) : option (archive * xdmf) :=
  match flds with
  | [] => None
  | (_, f0) :: _ =>
      if (3 <? length (s_nodes f0))%nat then None                                          (* 253-254: IndexError *)
      else
        let arrs := firstn 3 (map snd (s_nodes f0) ++ [[zero]; [zero]; [zero]]) in
        let d := map (fun p => (crd_loc (fst p), ACrd (snd p))) (combine ["x"; "y"; "z"]%string arrs) in
        match put_h5 d flds with
        | None => None
        | Some d => Some (d, XD (map (fun n => ("./" ++ base ++ ":" ++ crd_loc n)%string) ["x"; "y"; "z"]%string)
                                (map (attr_of base) flds))
        end
  end.

(** str.strip, str.split(':') *)
Definition space : ascii := " "%char.
Fixpoint lstrip (s : string) : string :=
  match s with EmptyString => EmptyString | String c r => if Ascii.eqb c space then lstrip r else s end.
Fixpoint rstrip (s : string) : string :=
  match s with
  | EmptyString => EmptyString
  | String c r => match rstrip r with
                  | EmptyString => if Ascii.eqb c space then EmptyString else String c EmptyString
                  | r' => String c r'
                  end
  end.
Fixpoint split_colon (s : string) : list string :=
  match s with
  | EmptyString => [EmptyString]
  | String c r => if Ascii.eqb c ":"%char then EmptyString :: split_colon r
                  else match split_colon r with x :: l => String c x :: l | [] => [String c EmptyString] end
  end.
(** characters that stand for themselves in an xml attribute and in xml text *)
Definition xml_char (c : ascii) : bool :=
  let n := nat_of_ascii c in
  (32 <=? n)%nat && (n <? 127)%nat && negb (Ascii.eqb c "<"%char) && negb (Ascii.eqb c "&"%char) && negb (Ascii.eqb c """"%char).
Fixpoint sforall (p : ascii -> bool) (s : string) : bool :=
  match s with EmptyString => true | String c r => p c && sforall p r end.

(* xdmf.py 421-455 for Format="HDF" *)
Definition data_item (base : string) (d : archive) (number text : string) : option entry :=
  if negb (existsb (String.eqb number) ["Float"; "Int"; "UInt"; "Char"; "UChar"]%string) then None   (* 431-432: KeyError *)
  else match split_colon (lstrip (rstrip text)) with
       | [file; loc] => if String.eqb file ("./" ++ base)%string then aget d loc else None
       | _ => None
       end.
(* xdmf.py 403-419 *)
Definition read_attr (base : string) (d : archive) (nodes : list (crd V)) (x : xattr) : option (string * (center * fld V V)) :=
  if sforall xml_char (xa_name x) && sforall xml_char (xa_text x) then
    match data_item base d (xa_number x) (xa_text x) with
    | Some e => match as_data e with
                | Some a => Some (xa_name x, (xa_center x,
                              F (xa_vec x) (placed (xa_center x) nodes) (map (fun _ => false) nodes) (SArr a) true None))
                | None => None
                end
    | None => None
    end
  else None.
Fixpoint read_attrs (base : string) (d : archive) (nodes : list (crd V)) (xs : list xattr) : option (list (string * (center * fld V V))) :=
  match xs with
  | [] => Some []
  | x :: r => match read_attr base d nodes x, read_attrs base d nodes r with Some f, Some fs => Some (f :: fs) | _, _ => None end
  end.
(* xdmf.py 266-279 *)
Fixpoint read_crds (base : string) (d : archive) (k : nat) (ts : list string) : option (list (crd V)) :=
  match ts with
  | [] => Some []
  | t :: r => match data_item base d "Float" t with
              | Some e => match as_list e, read_crds base d (S k) r with Some l, Some cs => Some ((k, l) :: cs) | _, _ => None end
              | None => None
              end
  end.
(* xdmf.py 200-216 *)
Definition load_xdmf (base : string) (d : archive) (x : xdmf) : option (list (string * (center * fld V V))) :=
  match read_crds base d 0 (x_crds x) with
  | Some nodes => read_attrs base d nodes (x_attrs x)
  | None => None
  end.
End SAVE.
