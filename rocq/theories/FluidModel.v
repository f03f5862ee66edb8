(** Model of following fluid elements in time: viscid/fluidtrace.py 24-127 (the curators of the seeds) and 157-268 (follow_fluid).

    SIMPLIFICATIONS: exact numbers; all times are whole numbers of some small unit.  Fields are values at places and the tracing of the points through a
    field for the time dt is a given function (C13, C14 are about it).  The bounds of a curator are given for three axes.  What is done with the
    callback's arguments, ancillary fields, the slice of the fields and stream_opts are left out. *)
From Coq Require Import ZArith QArith List Bool Lia.
Import ListNotations.
Open Scope Z_scope.

(** ** 184-227: direction, range and steps *)
Record opts := OP { o_tstart : option Z; o_tstop : option Z; o_duration : option Z; o_dt : option Z; o_dti : option Z }.
Record plan (G : Type) := PL { p_dir : Z; p_frames : list (Z * G); p_start : Z; p_stop : Z; p_dt : Z; p_dti : Z }.
Arguments PL {G} _ _ _ _ _ _. Arguments p_dir {G} _. Arguments p_frames {G} _. Arguments p_start {G} _. Arguments p_stop {G} _.
Arguments p_dt {G} _. Arguments p_dti {G} _.
Definition odflt {A : Type} (o : option A) (d : A) : A := match o with Some x => x | None => d end.
Fixpoint diffs (l : list Z) : list Z :=
  match l with
  | a :: ((b :: _) as t) => (b - a) :: diffs t
  | _ => []
  end.
Fixpoint zmin (d : Z) (l : list Z) : Z := match l with [] => d | x :: t => Z.min x (zmin x t) end.
(* 189 *)
Definition min_dt (ts : list Z) (unit : Z) : Z := match diffs ts with [] => unit | d => zmin unit (map Z.abs d) end.
Definition neg (o : option Z) : bool := match o with Some x => x <? 0 | None => false end.
(* frames: the times and grids of the selection; r0, r1: the ends of the selected range; unit: the number 1.0. None: an exception *)
Definition setup {G : Type} (frames : list (Z * G)) (r0 r1 unit : Z) (o : opts) : option (plan G) :=
  match frames with
  | [] => None
  | f0 :: _ =>
    let ts := map fst frames in
    let sd := Z.sgn (last ts 0 - fst f0) in                                            (* 188 *)
    let dir := match o_tstart o, o_tstop o with
               | Some a, Some b => Z.sgn (b - a)                                       (* 192-193 *)
               | _, _ => if neg (o_dt o) || neg (o_duration o) then -1                 (* 194-195 *)
                         else if sd =? 0 then 1 else sd                                (* 196-197 *)
               end in
    let flip := ((0 <? dir) && (sd <? 0)) || ((dir <? 0) && (0 <? sd)) in              (* 200 *)
    let fr := if flip then rev frames else frames in
    let a := if flip then r1 else r0 in
    let b := if flip then r0 else r1 in
    let ta := odflt (o_tstart o) a in                                                  (* 207-208 *)
    let tb := match o_tstop o with
              | Some x => x
              | None => match o_duration o with Some d => ta + dir * Z.abs d | None => b end   (* 210-214 *)
              end in
    let dt := match o_dt o with Some d => Z.abs d | None => min_dt ts unit end in      (* 217 *)
    let dti := match o_dti o with Some d => Z.abs d | None => dt end in                (* 218 *)
    if existsb (fun d => negb (Z.sgn d =? dir)) (diffs (map fst fr)) then None         (* 225: RuntimeError *)
    else Some (PL dir fr ta tb dt dti)
  end.

(** ** 231-246: the fields at a time *)
Definition axpby (a : Q) (x : nat -> Q) (b : Q) (y : nat -> Q) : nat -> Q := fun k => (a * x k + b * y k)%Q.
Definition idx0 (dir : Z) (ts : list Z) (t : Z) : nat := length (filter (fun s => dir * (s - t) <? 0) ts) - 1.
Definition idx1 (n i0 : nat) : nat := Nat.min (i0 + 1) (n - 1).
Definition frac (t t0 t1 : Z) : Q := if t0 =? t1 then 0%Q else (inject_Z (t - t0) / inject_Z (t1 - t0))%Q.
Definition field_at (dir : Z) (frames : list (Z * (nat -> Q))) (t : Z) : nat -> Q :=
  let ts := map fst frames in
  let i0 := idx0 dir ts t in
  let i1 := idx1 (length frames) i0 in
  let f0 := nth i0 frames (0, fun _ => 0%Q) in
  let f1 := nth i1 frames (0, fun _ => 0%Q) in
  if (i0 =? i1)%nat then snd f0
  else let a := frac t (fst f0) (fst f1) in axpby a (snd f0) (1 - a)%Q (snd f1).

(** ** 230-268: the loops; F: a field, S: the array of the points *)
Section LOOP.
Variables (F S : Type).
Variable fld : Z -> F.                 (* the field for a time *)
Variable advance : F -> S -> S.        (* 252-265: the ends of the paths; written into the array of the points *)
Variable curate : F -> Z -> S -> S.    (* 266: the points the curator gives back *)
Variable inplace : bool.               (* the curator gives back the array it got, changed in place, and not a new one *)
Variables (dir tstop dt dti : Z).
(* what the callback gets: number, time, field, points *)
Record call := CL { c_i : nat; c_t : Z; c_f : F; c_s : S }.
(* mine: the array of the points is still that of the generator, user: the points of the generator *)
Record state := ST { s_t : Z; s_i : nat; s_s : S; s_log : list call; s_mine : bool; s_user : S }.
Inductive cfg := Outer (s : state) | Inner (tn : Z) (f : F) (s : state) | Done (s : state).
Definition step (c : cfg) : cfg :=
  match c with
  | Outer s => if dir * (s_t s - tstop) <=? 0 then Inner (s_t s + dir * dti) (fld (s_t s)) s else Done s
  | Inner tn f s =>
    if (dir * (s_t s - tn) <? 0) && (dir * (s_t s - tstop) <=? 0)
    then let moved := advance f (s_s s) in
         let cured := curate f (s_t s) moved in
         Inner tn f (ST (s_t s + dir * dt) (s_i s + 1) cured (s_log s ++ [CL (s_i s) (s_t s) f (s_s s)]) (s_mine s && inplace)
                        (if s_mine s then (if inplace then cured else moved) else s_user s))
    else Outer s
  | Done s => Done s
  end.
Fixpoint run (n : nat) (c : cfg) : cfg := match n with O => c | Datatypes.S m => run m (step c) end.
(* the points of the generator are used as they are if it keeps them (seed.py 225-232, 320-337) *)
Definition start (tstart : Z) (kept : bool) (s0 : S) : cfg := Outer (ST tstart 0 s0 [] kept s0).
End LOOP.

(** ** 24-127: curators *)
Definition pt := (Q * Q * Q)%type.
Record bounds := BD { b_lo : pt; b_hi : pt; b_in : option Q; b_out : option Q }.
Definition px (p : pt) : Q := fst (fst p).
Definition py (p : pt) : Q := snd (fst p).
Definition pz (p : pt) : Q := snd p.
Definition qlt (a b : Q) : bool := negb (Qle_bool b a).
Definition rsq (p : pt) : Q := (px p * px p + py p * py p + pz p * pz p)%Q.
Definition truthy (o : option Q) : bool := match o with Some x => negb (Qeq_bool x 0) | None => false end.
(* 67-85 *)
Definition oob (b : bounds) (p : pt) : bool :=
  qlt (px p) (px (b_lo b)) || qlt (py p) (py (b_lo b)) || qlt (pz p) (pz (b_lo b)) ||
  qlt (px (b_hi b)) (px p) || qlt (py (b_hi b)) (py p) || qlt (pz (b_hi b)) (pz p) ||
  (match b_in b with Some r => truthy (b_in b) && qlt (rsq p) (r * r) | None => false end) ||
  (match b_out b with Some r => truthy (b_out b) && qlt (r * r) (rsq p) | None => false end).
(* 87-90 *)
Definition curate_remove (b : bounds) (seeds : list pt) : list pt := filter (fun p => negb (oob b p)) seeds.
(* 93-111; the state is last_run *)
Definition curate_add (b : bounds) (fresh : list pt) (cadence : Z) (last : option Z) (t : Z) (seeds : list pt) : option Z * list pt :=
  let l := match last with Some x => x | None => t end in
  if cadence <? t - l then (Some t, filter (fun p => negb (oob b p)) seeds ++ fresh) else (Some l, seeds).
(* 114-127; the state is orig_seeds *)
Fixpoint replace (b : bounds) (seeds orig : list pt) : list pt :=
  match seeds, orig with
  | s :: t, o :: u => (if oob b s then o else s) :: replace b t u
  | _, _ => seeds
  end.
(* None: IndexError of numpy, the mask and the originals have different lengths *)
Definition curate_replace (b : bounds) (orig : option (list pt)) (seeds : list pt) : option (option (list pt) * list pt) :=
  let o := match orig with Some x => x | None => seeds end in
  if (length o =? length seeds)%nat then Some (Some o, replace b seeds o) else None.
