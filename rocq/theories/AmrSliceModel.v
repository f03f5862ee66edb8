(** Model of slicing of AMR fields: get_slice_extent and sel2values without coordinates (viscid/coordinate.py 566-597,
    viscid/sliceutil.py 753-827), the choice of the patches (viscid/amr_field.py 99-178) and the assembly of the result
    (180-214, 227-247).

    Coordinates are exact rationals.  SIMPLIFICATIONS: the selection is given after it was parsed, one item per axis (C10
    has the parsing), without new axes, arrays, dates and names of components
    (for these the extent is asked for with the name in it, which is a ValueError). *)
From Coq Require Import String.
From Verif Require Export SelModel.
From Coq Require Import List.
Import ListNotations.
Open Scope Z_scope.

(** floats with infinities *)
Inductive ext := NInf | Fin (q : Q) | PInf | NaN.
Definition elt (a b : ext) : bool :=
  match a, b with
  | NaN, _ | _, NaN => false
  | Fin x, Fin y => negb (Qle_bool y x)
  | NInf, NInf => false
  | NInf, _ => true
  | _, NInf => false
  | PInf, _ => false
  | _, PInf => true
  end.
Definition ele (a b : ext) : bool :=
  match a, b with
  | NaN, _ | _, NaN => false
  | Fin x, Fin y => Qle_bool x y
  | NInf, _ => true
  | _, NInf => false
  | _, PInf => true
  | PInf, _ => false
  end.
Definition is_nan (a : ext) : bool := match a with NaN => true | _ => false end.
Definition esub (a : ext) (t : Q) : ext := match a with Fin x => Fin (x - t) | a => a end.

(** one item of a standardized selection; the step of a slice is never None here (sliceutil.py 320-324) *)
Inductive asel := ASlice (start stop : sbound) (step : Z) | AVal (v : Q) | AIdx (i : Z).

(* sliceutil.py 753-827 with arr = None *)
Definition sel2values (s : asel) : ext * ext :=
  match s with
  | ASlice start stop step =>
      (match start with BNone => if 0 <? step then NInf else if step <? 0 then PInf else NaN | BIdx _ => NaN | BVal v => Fin v end,
       match stop with BNone => if 0 <? step then PInf else if step <? 0 then NInf else NaN | BIdx _ => NaN | BVal v => Fin v end)
  | AVal v => (Fin v, Fin v)
  | AIdx _ => (NaN, NaN)
  end.
(* coordinate.py 566-597; None: RuntimeError *)
Definition slice_extent (sels : list asel) : option (list (ext * ext)) :=
  let e := map sel2values sels in
  if existsb (fun p => is_nan (fst p) || is_nan (snd p)) e then None
  else Some (map (fun p => if elt (snd p) (fst p) then (snd p, fst p) else p) e).

Record patch := Patch { p_xl : list Q; p_xh : list Q }.
Inductive picked := PValueError | PRuntimeError | PNone | PInds (l : list nat).

(** np.isclose with the default rtol *)
Definition isclose (atol : Q) (x : Q) (e : ext) : bool :=
  match e with Fin y => Qle_bool (qabs (x - y)) (atol + (1 # 100000) * qabs y) | _ => false end.
(* amr_field.py 124-126 *)
Definition dim_is_2d (ps : list patch) (d : nat) : bool := forallb (fun p => Qeq_bool (qnth (p_xl p) d) (qnth (p_xh p) d)) ps.

Section CHOICE.
Variable atol : Q.
(** lower and upper corner of a patch along [d] for the comparison (127-130) *)
Definition corner_l (ps : list patch) (p : patch) (d : nat) : ext := if dim_is_2d ps d then NInf else Fin (qnth (p_xl p) d).
Definition corner_h (ps : list patch) (p : patch) (d : nat) : ext := if dim_is_2d ps d then PInf else Fin (qnth (p_xh p) d).
(* 149-150 *)
Definition overlaps (ps : list patch) (ex : list (ext * ext)) (p : patch) : bool :=
  forallb (fun d => let e := nth d ex (NInf, PInf) in
                    negb (elt (snd e) (esub (corner_l ps p d) atol)) && negb (ele (corner_h ps p d) (fst e)))
          (seq 0 (length ex)).
(* 151 *)
Definition at_end (ex : list (ext * ext)) (p : patch) : bool :=
  existsb (fun d => isclose atol (qnth (p_xh p) d) (fst (nth d ex (NInf, PInf)))) (seq 0 (length ex)).
Definition ith (ps : list patch) (i : nat) : patch := nth i ps (Patch [] []).
(* amr_field.py 99-178 *)
Definition pick_patches (ps : list patch) (sels : list asel) : picked :=
  match ps with
  | [] => PValueError
  | _ =>
      match slice_extent sels with
      | None => PRuntimeError
      | Some ex =>
          let hits := filter (fun i => overlaps ps ex (ith ps i)) (seq 0 (length ps)) in
          let maybe := filter (fun i => at_end ex (ith ps i)) hits in
          let inds := filter (fun i => negb (at_end ex (ith ps i))) hits in
          let inds := match maybe, inds with _ :: _, [] => maybe | _, _ => inds end in
          match inds with [] => PNone | _ => PInds inds end
      end
  end.
End CHOICE.

(** ** assembly: what matters of a sliced patch are its axes, the number of values and the values *)
Record spatch (A : Type) := SPatch { s_axes : list string; s_size : Z; s_data : A }.
Arguments SPatch {A}. Arguments s_axes {A}. Arguments s_size {A}. Arguments s_data {A}.
Section ASSEMBLE.
Context {A : Type}.
Inductive sliced := SOne (f : spatch A) | SAmr (l : list (spatch A)) | SErr.
Definition has (a : string) (l : list string) : bool := existsb (String.eqb a) l.
Fixpoint names_eqb (a b : list string) : bool :=
  match a, b with [], [] => true | x :: a, y :: b => String.eqb x y && names_eqb a b | _, _ => false end.
(** [f['x=:,y=newaxis,z=:']]: the items that are not new must be the axes in their order; a new axis has one place *)
Definition putback (l : list (string * bool)) (f : spatch A) : option (spatch A) :=
  if names_eqb (map fst (filter (fun p => negb (snd p)) l)) (s_axes f) then Some (SPatch (map fst l) (s_size f) (s_data f)) else None.
(** np.argmax: the first of the longest *)
Fixpoint longest (best : list string) (l : list (list string)) : list string :=
  match l with [] => best | x :: r => longest (if (length best <? length x)%nat then x else best) r end.
Fixpoint sequence {B} (l : list (option B)) : option (list B) :=
  match l with
  | [] => Some []
  | Some x :: r => option_map (cons x) (sequence r)
  | None :: _ => None
  end.
(* amr_field.py 180-214 *)
Definition finalize (l : list (spatch A)) : sliced :=
  let l := filter (fun f => negb (s_size f =? 0)) l in                                         (* 191-194 *)
  match map s_axes l with
  | [] => SErr                                                                                  (* argmax of nothing: ValueError *)
  | a :: r =>
      let ref := longest a r in                                                                 (* 197-200 *)
      match sequence (map (fun f => if (length (s_axes f) <? length ref)%nat
                                    then putback (map (fun a => (a, negb (has a (s_axes f)))) ref) f else Some f) l) with
      | Some l => SAmr l
      | None => SErr
      end
  end.
(* amr_field.py 227-247; AttributeError if there is no patch *)
Definition amr_slice {B} (slice1 : B -> spatch A) (fs : list B) (p : picked) : sliced :=
  match p with
  | PInds [i] => match nth_error fs i with Some f => SOne (slice1 f) | None => SErr end
  | PInds l => match sequence (map (nth_error fs) l) with Some l => finalize (map slice1 l) | None => SErr end
  | _ => SErr
  end.
End ASSEMBLE.
