(** Model of the VPIC reader, viscid/readers/vpic.py: the global file (274-397), the blocks (441-455), the variables of a block and
    their places in the dump files (464-507), reading one variable (546-603, 676-679).

    SIMPLIFICATIONS: lines are given split into words, with numbers read; coordinates are exact rationals; a dump file is the size
    of its arrays, as in its header, and its 32 bit words, the constants in the header are not modelled; if the size in the file is not that of
    the global file, reading counts as an error (numpy's reshape raises unless the products agree). *)
From Coq Require Import String.
From Coq Require Import List ZArith QArith Qround.
Import ListNotations.
Open Scope Z_scope.

(** ** the global file *)
Inductive word := WInt (n : Z) | WNum (q : Q) | WStr (s : string).
(** a comment or empty line, a line with a key, a line that describes a variable: name, number of components, kind of number *)
Inductive kind := FLOATING_POINT_4 | INTEGER_2 | OTHER.
Inductive line := LSkip | LKw (key : string) (args : list word) | LDescr (name : string) (n_comps : nat) (k : kind).
Record descr := Descr { d_name : string; d_n : nat; d_kind : kind; d_off : Z }.
Record fset := FSet { fs_dir : string; fs_base : string; fs_descr : list descr }.

Definition dict (V : Type) := list (string * V).
Fixpoint dget {V} (d : dict V) (k : string) : option V :=
  match d with [] => None | (k', v) :: d => if String.eqb k k' then Some v else dget d k end.
Definition dput {V} (d : dict V) (k : string) (v : V) : dict V := (k, v) :: d.

(* 307-325, 342-345, 369-373: [next(f)] for each variable; None: an exception *)
Fixpoint take_descrs (n : nat) (off : Z) (ls : list line) : option (list descr * list line) :=
  match n with
  | O => Some ([], ls)
  | S n =>
      match ls with
      | LDescr name c k :: ls =>
          match k with
          | OTHER => None
          | _ => match take_descrs n (off + Z.of_nat c) ls with
                 | Some (ds, rest) => Some (Descr name c k off :: ds, rest)
                 | None => None
                 end
          end
      | _ => None
      end
  end.
(* 352-380: one species *)
Fixpoint take_species (ls : list line) (kw : dict word) : option (fset * list line) :=
  match ls with
  | LSkip :: ls => take_species ls kw
  | LKw key args :: ls =>
      if String.eqb key "HYDRO_DATA_VARIABLES" then
        match args with
        | [WInt n] =>
            match dget kw "SPECIES_DATA_DIRECTORY"%string, dget kw "SPECIES_DATA_BASE_FILENAME"%string with
            | Some (WStr dir), Some (WStr base) =>
                match take_descrs (Z.to_nat n) 0 ls with
                | Some (ds, rest) => Some (FSet dir base ds, rest)
                | None => None
                end
            | _, _ => None
            end
        | _ => None
        end
      else match args with [v] => take_species ls (dput kw key v) | _ => None end
  | _ => None
  end.
(* 347-352 *)
Fixpoint take_all_species (n : nat) (ls : list line) : option (list fset * list line) :=
  match n with
  | O => Some ([], ls)
  | S n => match take_species ls [] with
           | None => None
           | Some (s, ls) => match take_all_species n ls with Some (ss, ls) => Some (s :: ss, ls) | None => None end
           end
  end.

(* 252-268 *)
Inductive ktype := KInt | KNum | KNum2 | KStr.
Definition keywords : dict ktype :=
  [("DATA_HEADER_SIZE", KInt); ("GRID_DELTA_T", KNum); ("GRID_CVAC", KNum); ("GRID_EPS0", KNum);
   ("GRID_EXTENTS_X", KNum2); ("GRID_EXTENTS_Y", KNum2); ("GRID_EXTENTS_Z", KNum2);
   ("GRID_DELTA_X", KNum); ("GRID_DELTA_Y", KNum); ("GRID_DELTA_Z", KNum);
   ("GRID_TOPOLOGY_X", KInt); ("GRID_TOPOLOGY_Y", KInt); ("GRID_TOPOLOGY_Z", KInt);
   ("FIELD_DATA_DIRECTORY", KStr); ("FIELD_DATA_BASE_FILENAME", KStr)]%string.
Definition wnum (w : word) : option Q := match w with WInt n => Some (inject_Z n) | WNum q => Some q | WStr _ => None end.
Inductive kval := VInt (n : Z) | VNum (q : Q) | VNum2 (a b : Q) | VStr (s : string).
(* 287-300 *)
Definition read_kw (t : ktype) (args : list word) : option kval :=
  match t, args with
  | KInt, [WInt n] => Some (VInt n)
  | KNum, [w] => option_map VNum (wnum w)
  | KNum2, [a; b] => match wnum a, wnum b with Some a, Some b => Some (VNum2 a b) | _, _ => None end
  | KStr, [WStr s] => Some (VStr s)
  | _, _ => None
  end.
Record gfile := GFile { g_kw : dict kval; g_fields : option fset; g_species : option (list fset) }.

(* 270-303; [fuel] bounds the number of lines *)
Fixpoint parse (fuel : nat) (ls : list line) (g : gfile) : option gfile :=
  match fuel with
  | O => Some g
  | S fuel =>
      match ls with
      | [] => Some g
      | LSkip :: ls => parse fuel ls g
      | LDescr _ _ _ :: ls => parse fuel ls g                                                    (* 303: an error is logged *)
      | LKw key args :: ls =>
          if String.eqb key "VPIC_HEADER_VERSION" then                                          (* 328-330 *)
            match args with [WStr s] => if String.eqb s "1.0.0" then parse fuel ls g else None | _ => None end
          else if String.eqb key "FIELD_DATA_VARIABLES" then                                    (* 332-345 *)
            match args with
            | [WInt n] =>
                match dget (g_kw g) "FIELD_DATA_DIRECTORY"%string, dget (g_kw g) "FIELD_DATA_BASE_FILENAME"%string with
                | Some (VStr dir), Some (VStr base) =>
                    match take_descrs (Z.to_nat n) 0 ls with
                    | Some (ds, ls) => parse fuel ls (GFile (g_kw g) (Some (FSet dir base ds)) (g_species g))
                    | None => None
                    end
                | _, _ => None
                end
            | _ => None
            end
          else if String.eqb key "NUM_OUTPUT_SPECIES" then
            match args with
            | [WInt n] => match take_all_species (Z.to_nat n) ls with
                          | Some (ss, ls) => parse fuel ls (GFile (g_kw g) (g_fields g) (Some ss))
                          | None => None
                          end
            | _ => None
            end
          else match dget keywords key with
               | Some t => match read_kw t args with
                           | Some v => parse fuel ls (GFile (dput (g_kw g) key v) (g_fields g) (g_species g))
                           | None => None
                           end
               | None => parse fuel ls g                                                         (* 303 *)
               end
      end
  end.

(** what [_setup] (390-409) makes of it: topology, cell size, lower corner, cells per block *)
Record setup := Setup { s_topo : Z * Z * Z; s_dx : Q * Q * Q; s_xl : Q * Q * Q; s_ldims : Z * Z * Z; s_sets : list fset }.
Definition ldim (lo hi dx : Q) : Z := Qfloor ((hi - lo) / dx + (1 # 2)).                          (* astype(int) of what is not negative *)
Definition load_global (ls : list line) : option setup :=
  match parse (length ls) ls (GFile [] None None) with
  | Some (GFile kw (Some fs) (Some sp)) =>
      match dget kw "GRID_TOPOLOGY_X"%string, dget kw "GRID_TOPOLOGY_Y"%string, dget kw "GRID_TOPOLOGY_Z"%string,
            dget kw "GRID_DELTA_X"%string, dget kw "GRID_DELTA_Y"%string, dget kw "GRID_DELTA_Z"%string,
            dget kw "GRID_EXTENTS_X"%string, dget kw "GRID_EXTENTS_Y"%string, dget kw "GRID_EXTENTS_Z"%string with
      | Some (VInt tx), Some (VInt ty), Some (VInt tz), Some (VNum dx), Some (VNum dy), Some (VNum dz),
        Some (VNum2 xl xh), Some (VNum2 yl yh), Some (VNum2 zl zh) =>
          Some (Setup (tx, ty, tz) (dx, dy, dz) (xl, yl, zl) (ldim xl xh dx, ldim yl yh dy, ldim zl zh dz) (fs :: sp))
      | _, _, _, _, _, _, _, _, _ => None
      end
  | _ => None
  end.

(** ** blocks *)
Definition zseq (n : Z) : list Z := map Z.of_nat (seq 0 (Z.to_nat n)).
Definition linspace (lo hi : Q) (n : Z) : list Q :=
  map (fun m => if n =? 1 then lo else lo + inject_Z m * ((hi - lo) / inject_Z (n - 1)))%Q (zseq n).
(* 447-453, one axis *)
Definition block_nodes (xl dx : Q) (l idx : Z) : list Q :=
  linspace (xl + inject_Z (l * idx) * dx) (xl + inject_Z (l * (idx + 1)) * dx) (l + 1).
Record block := Block { b_x : list Q; b_y : list Q; b_z : list Q }.
(* 441-455 *)
Definition blocks (s : setup) : list block :=
  let '(tx, ty, tz) := s_topo s in let '(dx, dy, dz) := s_dx s in let '(xl, yl, zl) := s_xl s in let '(lx, ly, lz) := s_ldims s in
  flat_map (fun k => flat_map (fun j => map (fun i => Block (block_nodes xl dx lx i) (block_nodes yl dy ly j) (block_nodes zl dz lz k))
    (zseq tx)) (zseq ty)) (zseq tz).

(** ** variables of a block *)
(* 485-494; None: IndexError *)
Definition comp_name (n : nat) (c : nat) : option string :=
  nth_error (if (n =? 3)%nat then ["X"; "Y"; "Z"] else if (n =? 6)%nat then ["XX"; "YY"; "ZZ"; "YZ"; "ZX"; "XY"]
             else ["A"; "B"; "C"; "D"; "E"; "F"; "G"; "H"; "I"; "J"; "K"; "L"; "M"; "N"])%string c.
Definition var_name (fs : fset) (d : descr) (c : nat) : option string :=
  let base := (if String.eqb (fs_base fs) "fields" then d_name d else d_name d ++ " (" ++ fs_base fs ++ ")")%string in
  if (d_n d =? 1)%nat then Some base else option_map (fun s => base ++ " " ++ s)%string (comp_name (d_n d) c).
(** directory and basename of the file, number of the variable in it, kind in the description *)
Record where_ := Where { w_dir : string; w_base : string; w_num : Z; w_kind : kind }.
Fixpoint sequence {B} (l : list (option B)) : option (list B) :=
  match l with
  | [] => Some []
  | Some x :: r => option_map (cons x) (sequence r)
  | None :: _ => None
  end.
Definition one_var (fs : fset) (d : descr) (c : nat) : option (string * where_) :=
  option_map (fun n => (n, Where (fs_dir fs) (fs_base fs) (Z.of_nat c + d_off d) (d_kind d))) (var_name fs d c).
(* 468-507: the fields of a block by name, in the order in which they are added; a later one of the same name replaces an earlier *)
Definition variables (sets : list fset) : option (list (string * where_)) :=
  sequence (flat_map (fun fs => flat_map (fun d => map (one_var fs d) (seq 0 (d_n d))) (fs_descr fs)) sets).
Definition find_var (sets : list fset) (name : string) : option where_ :=
  match variables sets with Some l => dget (rev l) name | None => None end.

(** ** the dump files *)
(** the kind of a number is not used, every word is read as a 32 bit float *)
Record dump := Dump { f_dim : Z * Z * Z; f_words : list Z }.
Definition grid3 := Z -> Z -> Z -> option Z.
(* 590-600: the words of the variable, in Fortran order, without the outer layer *)
Definition read_field (f : dump) (num : Z) : option (Z * Z * Z * (Z -> Z -> Z -> Z)) :=
  let '(sx, sy, sz) := f_dim f in
  let n := sx * sy * sz in
  let data := firstn (Z.to_nat n) (skipn (Z.to_nat (num * n)) (f_words f)) in
  if Z.of_nat (length data) =? n then
    Some (Z.max 0 (sx - 2), Z.max 0 (sy - 2), Z.max 0 (sz - 2),
          fun i j k => nth (Z.to_nat ((i + 1) + sx * ((j + 1) + sy * (k + 1)))) data 0)
  else None.
(* 676-679 *)
Definition read_var (s : setup) (f : dump) (w : where_) : option (Z -> Z -> Z -> Z) :=
  match read_field f (w_num w) with
  | Some (nx, ny, nz, a) => let '(lx, ly, lz) := s_ldims s in
                            if (nx =? lx) && (ny =? ly) && (nz =? lz) then Some a else None
  | None => None
  end.
(** the value of a 32 bit float; None for infinities and NaN *)
Definition f32 (w : Z) : option Q :=
  let s := (if Z.testbit w 31 then -1 else 1)%Q in
  let e := (w / 2 ^ 23) mod 256 in let m := w mod 2 ^ 23 in
  if e =? 0 then Some (s * inject_Z m * (2 ^ (-149)))%Q
  else if e =? 255 then None
  else Some (s * inject_Z (2 ^ 23 + m) * (2 ^ (e - 150)))%Q.
(** the value at a cell of block [r] of the variable [name]; [fs] gives the dump file with a directory, basename and number of block *)
Definition value (s : setup) (fs : string -> string -> Z -> option dump) (name : string) (r i j k : Z) : option Q :=
  match find_var (s_sets s) name with
  | None => None
  | Some w => match fs (w_dir w) (w_base w) r with
              | None => None
              | Some f => match read_var s f w with Some a => f32 (a i j k) | None => None end
              end
  end.
