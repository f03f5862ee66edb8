(** Model of viscid/calculator/ecfc.py: edge and face centred fields.

    Values are rationals: rounding is not modelled.  Fields have three axes
    ([atleast_3d] has been done) and three components.  [find_info] has been evaluated: the field
    carries the three infos.  A missing staggering is [Leading] and a missing flip is [false], the defaults
    in the program.  Slicing cells 1: of a field slices its nodes 1: (C46). *)
From Verif Require Export ExtendModel.
Open Scope Z_scope.

Inductive stag := Leading | Trailing.
Inductive centering := Face | Edge | Other.
Definition ix := (Z * Z * Z)%type.
Record fld := FC {
  center : centering;
  pre : option bool;            (* PREPROCESSED_KEY: missing, False or True *)
  stagger : nat -> stag;        (* STAGGER_KEY *)
  flip : nat -> bool;           (* FLIP_KEY *)
  shp : nat -> Z;               (* sshape: number of cells along each axis *)
  comp : nat -> ix -> Q;        (* value of a component *)
  node : nat -> Z -> Q          (* nodes 0 .. sshape of each axis *)
}.

(** the slices [:-1], [1:] and [:] *)
Inductive sl := Head | Tail | All.
Definition sl_len (s : sl) (n : Z) : Z := match s with All => n | _ => Z.max 0 (n - 1) end.
Definition sl_off (s : sl) : Z := match s with Tail => 1 | _ => 0 end.

(* 75-76 *)
Definition SA : list sl := [Head; Tail; All].
Definition SB : list sl := [Tail; Head; All].
(* 78-93, 102-105: (_sd0, _sd) *)
Definition offs (trim_leading : bool) (s : stag) : nat * nat :=
  match s with
  | Trailing => (1, 0)
  | Leading => if trim_leading then (1, 1) else (2, 2)
  end%nat.
(* 95-121: sc and sd *)
Definition sc (f : fld) (i : nat) : sl := if shp f i =? 1 then All else Tail.
Definition sd (trim_leading : bool) (f : fld) (i j : nat) : sl :=
  if shp f i =? 1 then All
  else let (sd0, sd) := offs trim_leading (stagger f i) in
       let cnd := match center f with Face => Nat.eqb i j | _ => negb (Nat.eqb i j) end in
       let S := if flip f j && cnd then SB else SA in
       if cnd then nth sd S All else nth sd0 S All.

(* dst[...] = src: lengths are equal, or that of the source is 1 and it is repeated *)
Definition fits (dst src : Z) : bool := (src =? dst) || (src =? 1).
Definition bc (src i : Z) : Z := if src =? 1 then 0 else i.
Definition axes3 : list nat := [0; 1; 2]%nat.

(* 55-136; None: ValueError or RuntimeError *)
Definition make_leading (trim_leading : bool) (f : fld) : option fld :=
  match pre f with
  | Some true => Some f
  | None => Some (FC (center f) (Some true) (fun _ => Leading) (flip f) (shp f) (comp f) (node f))
  | Some false =>
      match center f with
      | Other => None
      | _ =>
          let n k := sl_len (sc f k) (shp f k) in
          let m c k := sl_len (sd trim_leading f c k) (shp f k) in
          if existsb (fun k => shp f k <? 1) axes3 then None
          else if forallb (fun c => forallb (fun k => fits (n k) (m c k)) axes3) axes3 then
            Some (FC (center f) (Some true) (fun _ => Leading) (flip f) n
              (fun c p => let '(x, y, z) := p in
                 comp f c (bc (m c 0%nat) x + sl_off (sd trim_leading f c 0%nat),
                           bc (m c 1%nat) y + sl_off (sd trim_leading f c 1%nat),
                           bc (m c 2%nat) z + sl_off (sd trim_leading f c 2%nat)))
              (fun k i => node f k (i + sl_off (sc f k))))
          else None
      end
  end.

(* 33-53: s0, sm and sp *)
Definition s0 (f : fld) (k : nat) : sl := if shp f k =? 1 then All else Head.
Definition sm (f : fld) (k : nat) : sl := if shp f k =? 1 then All else Head.
Definition sp (f : fld) (k : nat) : sl := if shp f k =? 1 then All else Tail.
Definition prep_ok (f : fld) : bool := forallb (fun k => 1 <=? shp f k) axes3.
(* a component with a slice for each axis; the shape is that of cc *)
Definition cut3 (f : fld) (c : nat) (s : nat -> sl) (p : ix) : Q :=
  let '(x, y, z) := p in comp f c (x + sl_off (s 0%nat), y + sl_off (s 1%nat), z + sl_off (s 2%nat)).
Definition cc_shape (f : fld) : list Z := map (fun k => sl_len (s0 f k) (shp f k)) axes3.
Definition ix_of (js : list Z) : ix := (nth 0 js 0, nth 1 js 0, nth 2 js 0).
(* [s0] with other slices for one or two axes *)
Definition with1 (f : fld) (a : nat) (s : sl) : nat -> sl := fun k => if Nat.eqb k a then s else s0 f k.
Definition with2 (f : fld) (a b : nat) (s t : sl) : nat -> sl := fun k => if Nat.eqb k a then s else if Nat.eqb k b then t else s0 f k.

(* extend_boundaries(cc, nl=1, nh=1, order=0): invarient_dx is 0 *)
Definition bnd_of (bnd : bool) (v : nd Q) : option (nd Q) :=
  if bnd then extend_boundaries_ndarr 1 1 0 v (AxList axes3) None 0 else Some v.
Fixpoint all_some {A} (l : list (option A)) : option (list A) :=
  match l with
  | [] => Some []
  | None :: _ => None
  | Some a :: r => option_map (cons a) (all_some r)
  end.

(* 138-176 *)
Definition fc2cc (bnd : bool) (f : fld) : option (list (nd Q)) :=
  match make_leading true f with
  | None => None
  | Some f =>
      if prep_ok f then
        all_some (map (fun c => bnd_of bnd (ND (cc_shape f) (fun js =>
          (1 # 2) * (cut3 f c (with1 f c (sm f c)) (ix_of js) + cut3 f c (with1 f c (sp f c)) (ix_of js)))%Q)) axes3)
      else None
  end.

(* 189-200: the other two axes *)
Definition others (c : nat) : nat * nat := match c with 0%nat => (1, 2) | 1%nat => (0, 2) | _ => (0, 1) end%nat.
(* 178-222 *)
Definition ec2cc (bnd : bool) (f : fld) : option (list (nd Q)) :=
  match make_leading true f with
  | None => None
  | Some f =>
      if prep_ok f then
        all_some (map (fun c => let (a, b) := others c in bnd_of bnd (ND (cc_shape f) (fun js =>
          (1 # 4) * (cut3 f c (with2 f a b (sm f a) (sm f b)) (ix_of js) + cut3 f c (with2 f a b (sm f a) (sp f b)) (ix_of js)
                     + cut3 f c (with2 f a b (sp f a) (sm f b)) (ix_of js) + cut3 f c (with2 f a b (sp f a) (sp f b)) (ix_of js)))%Q)) axes3)
      else None
  end.

(* 225-274.  [Nan]: some width is zero and the result has nan or infinite values; the other values are
   not modelled in that case *)
Inductive dres := Nan | Div (v : nd Q).
(* 236-247: x[:-1] keeps nodes 0 .. n-1; xm and xp are slices of it *)
Definition xm (f : fld) (k : nat) (i : Z) : Q := node f k (i + sl_off (sm f k)).
Definition xp (f : fld) (k : nat) (i : Z) : Q := node f k (i + sl_off (sp f k)).
Definition zero_width (f : fld) : bool :=
  existsb (fun k => existsb (fun i => Qeq_bool (xp f k (Z.of_nat i) - xm f k (Z.of_nat i)) 0) (seq 0 (Z.to_nat (sl_len (sm f k) (shp f k))))) axes3.
Definition flux (f : fld) (k : nat) (js : list Z) : Q :=
  ((cut3 f k (with1 f k (sp f k)) (ix_of js) - cut3 f k (with1 f k (sm f k)) (ix_of js))
   / (xp f k (nth k js 0%Z) - xm f k (nth k js 0%Z)))%Q.
Definition div_fc (bnd : bool) (f : fld) : option dres :=
  match make_leading true f with
  | None => None
  | Some f =>
      if prep_ok f then
        if zero_width f then Some Nan
        else option_map Div (bnd_of bnd (ND (cc_shape f) (fun js => flux f 0 js + flux f 1 js + flux f 2 js)%Q))
      else None
  end.
