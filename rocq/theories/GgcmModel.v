(** Model of viscid/readers/openggcm.py, with [get_field] of viscid/grid.py (271-301): which system the coordinates of an OpenGGCM grid are in and whether they
    are turned to GSE (222-335), what turning does to fields (116-165, 337-368; coordinate.py 486-520), the quantities that are derived (370-530), the grid2
    file and the place of planes (823-884), the grouping of file names (71-113).

    SIMPLIFICATIONS: numbers are exact; text that is compared with known words is an inductive type.  [None] is an exception unless a comment says otherwise. *)
From Coq Require Import String List Bool Arith ZArith QArith Qabs.
Import ListNotations.

(** ** which system, and whether to turn *)
Inductive sys := Mhd | Gse | Other | Unknown.
(* str(mhd_to_gse_on_read).strip().lower(); 'auto...' with whether it ends with 'true' *)
Inductive request := ReqTrue | ReqForce | ReqFalse | ReqAuto (default : bool) | ReqBad.
(* info '_viscid_log_fname': not set, False, None, or a name; with a name, what the log file holds: whether ggcm_mhd_type is "ggcm", whether the type of the initial
   condition begins with "mirdip", and the first of mrc_crds_l and mrc_crds_h *)
Inductive logf := LogUnset | LogOff | LogMissing | LogRead (ggcm : option bool) (mirdip : bool) (xl xh : option Q).
Definition Qltb (a b : Q) : bool := if Qlt_le_dec a b then true else false.
(* 237-259, 266-267 *)
Definition infer (l : logf) : sys :=
  match l with
  | LogRead (Some g) m (Some xl) (Some xh) =>
      let box := (g || m) && Qltb xl 0 && Qltb 0 xh in
      if box && Qltb (-2 * xl) xh then Mhd else if box && Qltb xl (-2 * xh) then Gse else Other
  | _ => Unknown
  end.
(* what a grid knows: its own '_viscid_do_mhd_to_gse_on_read' and 'crd_system', the 'crd_system' of the nodes above it *)
Record node := ND { n_flag : option bool; n_sys : option sys; n_up : option sys; n_assume : bool; n_log : logf }.
(* 222-335 *)
Definition do_turn (r : request) (n : node) : option (bool * node) :=
  match n_flag n with
  | Some b => Some (b, n)                                                                 (* 225-226 *)
  | None =>
      let known := match n_sys n with Some s => Some s | None => n_up n end in           (* 229 *)
      let found := match known with
                   | Some s => Some s
                   | None => if n_assume n then Some Mhd
                             else match n_log n with LogUnset => None | l => Some (infer l) end   (* 236: find_info raises *)
                   end in
      match found with
      | None => None
      | Some s =>
          let n1 := ND None (match known with Some _ => n_sys n | None => Some s end) (n_up n) (n_assume n) (n_log n) in   (* 269-270 *)
          let ret := match r with
                     | ReqTrue | ReqForce => Some true
                     | ReqFalse => Some false
                     | ReqAuto d => match s with
                                    | Mhd => Some true
                                    | Gse => Some false
                                    | _ => match n_log n with LogUnset => None | _ => Some d end    (* 299 *)
                                    end
                     | ReqBad => None
                     end in
          match ret with
          | None => None
          | Some b => Some (b, ND (Some b) (n_sys n1) (n_up n) (n_assume n) (n_log n))
          end
      end
  end.

(** ** the transform that is set on a field *)
Local Open Scope string_scope.
(* 208-214 *)
Definition flip_comps : list string :=
  ["bx"; "by"; "ex"; "ey"; "vx"; "vy"; "rv1x"; "rv1y"; "jx"; "jy"; "xjx"; "xjy"; "b1x"; "b1y"; "bx1"; "by1"; "b2x"; "b2y"; "bx2"; "by2";
   "ex_cc"; "ey_cc"; "ex_ec"; "ey_ec"; "eflx"; "efly"].
Definition flip_vects : list string := ["v"; "b"; "b1"; "b2"; "b_cc"; "b_fc"; "e_cc"; "e_ec"; "efl"; "j"; "xj"].
Definition mem (s : string) (l : list string) : bool := existsb (String.eqb s) l.
Inductive transform := TNone | TPlain | TNeg | TVec.
(* 350-367: the transform and the info crd_system that are put on the field *)
Definition add_field (r : request) (n : node) (vector : bool) (name : string) : option (transform * sys * node) :=
  match do_turn r n with
  | None => None
  | Some (true, n1) =>
      if vector then Some (TVec, Gse, n1)
      else if mem name flip_comps then Some (TNeg, Gse, n1)
      else if mem name flip_vects then None                                               (* 358 *)
      else Some (TPlain, Gse, n1)
  | Some (false, n1) => match n_sys n1 with Some s => Some (TNone, s, n1) | None => None end   (* 365: get_info looks at the grid only *)
  end.
Close Scope string_scope.

(** ** turned data *)
Local Open Scope Q_scope.
(* coordinate.py: _reflect_axis_arr *)
Definition reflected (x : list Q) : list Q := map (fun v => -1 * v) (rev x).
(* coordinate.py: the cell centres *)
Fixpoint centres (x : list Q) : list Q :=
  match x with a :: ((b :: _) as r) => (a + (1 # 2) * (b - a)) :: centres r | _ => [] end.
Definition locs (cell : bool) (x : list Q) : list Q := if cell then (match x with [_] => x | _ => centres x end) else x.
(* a field of the file: nodes along the three axes, centring, and the value of component c at each index *)
Record fld := FLD { f_x : list Q; f_y : list Q; f_z : list Q; f_cell : bool; f_val : nat -> nat -> nat -> nat -> Q }.
Definition factor (t : transform) (c : nat) : Q :=
  match t with TNone | TPlain => 1 | TNeg => -1 | TVec => match c with O | S O => -1 | _ => 1 end end.
(* 337-347 with set_crds, coordinate.py 486-520: x and y reversed, then the transform of the field *)
Definition turned (t : transform) (f : fld) : fld :=
  FLD (reflected (f_x f)) (reflected (f_y f)) (f_z f) (f_cell f)
      (fun c i j k => f_val f c (length (locs (f_cell f) (f_x f)) - 1 - i)%nat (length (locs (f_cell f) (f_y f)) - 1 - j)%nat k * factor t c).

(* reading the field again and again through copies of the grid's own field (grid.py 278-281): [memory]: the source is an array in memory, which the transform then
   changes in place unless it copies (116-165; field.py 960-965) *)
Definition read_src (copy memory : bool) (t : transform) (src : Q) : Q * Q :=
  let v := src * factor t 0 in (v, if memory && negb copy then v else src).
Fixpoint reads (copy memory : bool) (t : transform) (n : nat) (src : Q) : list Q :=
  match n with O => [] | S m => let '(v, s) := read_src copy memory t src in v :: reads copy memory t m s end.

(** ** derived quantities *)
Local Open Scope string_scope.
Inductive expr :=
| Stored (n : string)
| Comp (c : nat) (e : expr)
| Vec (x y z : expr)
| Ratio (a b : expr)
| Mag (a b c : expr)
| Norm (e : expr)        (* times bbnorm *)
| Lead (e : expr)        (* face or edge centred, made leading *)
| ToCc (e : expr).       (* averaged to the cells *)
(* Loop: Python's recursion limit, which is no KeyError *)
Inductive res := Ok (e : expr) | KeyErr | Loop.
Definition bind (r : res) (f : expr -> res) : res := match r with Ok e => f e | KeyErr => KeyErr | Loop => Loop end.
Definition try_ (r : res) (h : res) : res := match r with KeyErr => h | _ => r end.
Section GET.
Variable stored : string -> bool.
(* 404-409 *)
Definition assemble (get : string -> res) (base suffix : string) : res :=
  bind (get (base ++ "x" ++ suffix)) (fun x => bind (get (base ++ "y" ++ suffix)) (fun y => bind (get (base ++ "z" ++ suffix)) (fun z => Ok (Vec x y z)))).
Definition get_b1 (get : string -> res) : res :=                                          (* 465-476 *)
  bind (try_ (bind (assemble get "b1" "") (fun e => Ok (Norm e))) (assemble get "b" "1")) (fun e => Ok (Lead e)).
Definition get_b2 (get : string -> res) : res :=                                          (* 478-489 *)
  bind (try_ (bind (assemble get "b2" "") (fun e => Ok (Norm e))) (assemble get "b" "2")) (fun e => Ok (Lead e)).
Definition get_b_fc (get : string -> res) : res := try_ (get_b1 get) (get_b2 get).          (* 459-463 *)
Definition get_b_cc (get : string -> res) : res :=                                        (* 450-457 *)
  try_ (assemble get "b" "") (bind (get_b_fc get) (fun e => Ok (ToCc e))).
Definition get_efl (get : string -> res) : res := bind (assemble get "efl" "") (fun e => Ok (Lead e)).   (* 519-524 *)
Definition get_e_ec (get : string -> res) : res :=                                        (* 508-517 *)
  try_ (bind (assemble get "e" "_ec") (fun e => Ok (Lead e))) (get_efl get).
Definition get_e_cc (get : string -> res) : res :=                                        (* 494-506 *)
  try_ (assemble get "e" "_cc") (try_ (assemble get "e" "") (bind (get_e_ec get) (fun e => Ok (ToCc e)))).
Definition mag3 (get : string -> res) (a b c : string) : res :=
  bind (get a) (fun x => bind (get b) (fun y => bind (get c) (fun z => Ok (Mag x y z)))).
(* the _get_* methods, 370-402, 411-423, 447-560 *)
Definition derive (get : string -> res) (n : string) : res :=
  if n =? "T" then bind (get "pp") (fun p => bind (get "rr") (fun r => Ok (Ratio p r)))
  else if n =? "bx" then bind (get "b") (fun e => Ok (Comp 0 e))
  else if n =? "by" then bind (get "b") (fun e => Ok (Comp 1 e))
  else if n =? "bz" then bind (get "b") (fun e => Ok (Comp 2 e))
  else if n =? "vx" then bind (get "v") (fun e => Ok (Comp 0 e))
  else if n =? "vy" then bind (get "v") (fun e => Ok (Comp 1 e))
  else if n =? "vz" then bind (get "v") (fun e => Ok (Comp 2 e))
  else if n =? "jx" then get "xjx"
  else if n =? "jy" then get "xjy"
  else if n =? "jz" then get "xjz"
  else if n =? "v" then assemble get "v" ""
  else if n =? "j" then assemble get "j" ""
  else if n =? "xj" then assemble get "j" ""
  else if n =? "b" then get_b_cc get
  else if n =? "b_cc" then get_b_cc get
  else if n =? "b_fc" then get_b_fc get
  else if n =? "b1" then get_b1 get
  else if n =? "b2" then get_b2 get
  else if n =? "e" then get_e_cc get
  else if n =? "e_cc" then get_e_cc get
  else if n =? "e_ec" then get_e_ec get
  else if n =? "efl" then get_efl get
  else if n =? "bmag" then mag3 get "bx" "by" "bz"
  else if n =? "jmag" then mag3 get "jx" "jy" "jz"
  else if n =? "speed" then mag3 get "vx" "vy" "vz"
  else KeyErr.
(* grid.py 271-301; [fuel]: how deep the calls may go *)
Fixpoint get_fld (fuel : nat) (n : string) : res :=
  if stored n then Ok (if n =? "divB" then Norm (Stored n) else Stored n)                 (* 562-563 *)
  else match fuel with O => Loop | S k => derive (get_fld k) n end.
End GET.
Close Scope string_scope.

(** ** the grid2 file *)
Local Open Scope Q_scope.
Fixpoint half_diffs (cc : list Q) : list Q := match cc with a :: ((b :: _) as r) => (1 # 2) * (b - a) :: half_diffs r | _ => [] end.
Fixpoint add2 (a b : list Q) : list Q := match a, b with x :: a', y :: b' => (x + y) :: add2 a' b' | _, _ => [] end.
(* 855-857; None: hd[0] of an empty array *)
Definition nodes_of (cc : list Q) : option (list Q) :=
  match cc, half_diffs cc with
  | c0 :: _, h0 :: _ => Some ((c0 - h0) :: add2 (removelast cc) (half_diffs cc) ++ [last cc 0 + last (half_diffs cc) 0])
  | _, _ => None
  end.
(* np.argmin(np.abs(cc - loc)) *)
Fixpoint argmin_from (loc : Q) (l : list Q) (i best : nat) (bd : Q) : nat :=
  match l with [] => best | c :: r => if Qltb (Qabs (c - loc)) bd then argmin_from loc r (S i) i (Qabs (c - loc)) else argmin_from loc r (S i) best bd end.
Definition argmin (loc : Q) (cc : list Q) : nat := match cc with [] => O | c :: r => argmin_from loc r 1 O (Qabs (c - loc)) end.
(* 863-882: the cell of the plane; [tenths]: the number in the name; [truthy]: bool(GGCMGrid.mhd_to_gse_on_read); [xy]: the plane is one of constant x or y *)
Definition plane_cell (truthy xy : bool) (tenths : Q) (cc : list Q) : nat :=
  argmin (if truthy && xy then -1 * (tenths / 10) else tenths / 10) cc.

(** ** groups of files *)
(* 71-79: run name, type, time (None: a file for the whole run), file name *)
Record info (A : Type) := IF { i_run : nat; i_type : nat; i_time : option nat; i_name : A }.
Arguments IF {A} _ _ _ _. Arguments i_run {A} _. Arguments i_type {A} _. Arguments i_time {A} _. Arguments i_name {A} _.
Definition time_key {A} (f : info A) : nat := match i_time f with Some t => S t | None => O end.    (* 77: -1 comes first *)
Section GROUPS.
Context {A : Type}.
(* list.sort(key), which is stable *)
Fixpoint ins (key : info A -> nat) (x : info A) (l : list (info A)) : list (info A) :=
  match l with [] => [x] | y :: r => if (key x <=? key y)%nat then x :: l else y :: ins key x r end.
Definition sort_by (key : info A -> nat) (l : list (info A)) : list (info A) := fold_right (ins key) [] l.
Definition same_run (a b : info A) : bool := ((i_run a =? i_run b) && (i_type a =? i_type b))%nat.
(* 87-97; [cur]: the open group, the last file first *)
Fixpoint split_groups (cur : list (info A)) (l : list (info A)) : list (list (info A)) :=
  match l with
  | [] => [rev cur]
  | f :: r => match cur with
              | last :: _ => if same_run f last then split_groups (f :: cur) r else rev cur :: split_groups [f] r
              | [] => split_groups [f] r
              end
  end.
(* 104-110 *)
Definition drop_run_level (g : list (info A)) : list (info A) :=
  if existsb (fun f => match i_time f with Some _ => true | None => false end) g
  then filter (fun f => match i_time f with Some _ => true | None => false end) g else g.
(* 71-113; None: IndexError *)
Definition group_files (l : list (info A)) : option (list (list A)) :=
  match sort_by i_run (sort_by i_type (sort_by time_key l)) with
  | [] => None
  | f :: r => Some (map (map i_name) (map drop_run_level (split_groups [f] r)))
  end.
End GROUPS.
