(** Model of selection by value: std_sel2index, _unify_sbv_types (its tolerance)
    and _interiorize_slice of viscid/sliceutil.py.  Floats are exact rationals.
    SIMPLIFICATION: date and time axes are not modelled (their tolerance is 0). *)
From Verif Require Export PySlice.
From Coq Require Export QArith.
Open Scope Z_scope.

(** one bound of a standardized slice: None, an index, or a value *)
Inductive sbound := BNone | BIdx (i : Z) | BVal (v : Q).

(** numpy: a[i] for a valid non-negative index *)
Definition qnth (a : list Q) (i : nat) : Q := nth i a 0%Q.

(** numpy.ma argmin: None is a masked entry, which counts as +inf; the first
    smallest entry wins, index 0 if everything is masked *)
Definition olt (x y : option Q) : bool :=
  match x, y with
  | Some a, Some b => negb (Qle_bool b a)
  | Some _, None => true
  | None, _ => false
  end.
Fixpoint argmin_from (i best : nat) (bv : option Q) (l : list (option Q)) : nat :=
  match l with
  | [] => best
  | x :: l' => if olt x bv then argmin_from (S i) i x l' else argmin_from (S i) best bv l'
  end.
Definition argmin (l : list (option Q)) : nat :=
  match l with [] => O | x :: l' => argmin_from 1 0 x l' end.

Definition qabs (x : Q) : Q := if Qle_bool 0 x then x else (- x)%Q.

(* viscid/sliceutil.py:658-662: tol = 0.0001 * min(diff(crd_arr)) or 1.0 *)
Fixpoint diffs (a : list Q) : list Q :=
  match a with
  | x :: ((y :: _) as r) => (y - x)%Q :: diffs r
  | _ => []
  end.
Definition qmin (x y : Q) : Q := if Qle_bool x y then x else y.
Definition tol (a : list Q) : Q :=
  match diffs a with
  | [] => 1%Q
  | d :: ds => ((1 # 10000) * fold_left qmin ds d)%Q
  end.

(** np.ma.masked_less(diff, 0) / masked_greater(diff, 0), then np.abs *)
Definition masked_less (d : Q) : option Q := if Qle_bool 0 d then Some (qabs d) else None.
Definition masked_greater (d : Q) : option Q := if Qle_bool d 0 then Some (qabs d) else None.
Definition all_masked (l : list (option Q)) : bool :=
  forallb (fun o => match o with None => true | Some _ => false end) l.

(* viscid/sliceutil.py:505-531: the start bound; [None] is the early return of
   slice(0, 0, ustep) *)
Definition start_index (a : list Q) (b : sbound) (ustep : Z) : option (option Z) :=
  match b with
  | BNone => Some None
  | BIdx i => Some (Some i)
  | BVal v =>
      let d := map (fun x => (x - v + tol a * inject_Z (Z.sgn ustep))%Q) a in
      let m := map (if 0 <? ustep then masked_less else masked_greater) d in
      if all_masked m then
        if 0 <? ustep then Some (Some (Z.of_nat (length a))) else None
      else Some (Some (Z.of_nat (argmin m)))
  end.

(* viscid/sliceutil.py:533-568: the stop bound *)
Definition stop_index (a : list Q) (b : sbound) (ustep : Z) (val_endpoint : bool) : option Z :=
  match b with
  | BNone => None
  | BIdx i => Some i
  | BVal v =>
      let d := map (fun x => (x - v - tol a * inject_Z (Z.sgn ustep))%Q) a in
      let m := map (if 0 <? ustep then masked_greater else masked_less) d in
      if 0 <? ustep then
        if negb (Qle_bool (qnth a 0) v) then Some 0                          (* 549-551 *)
        else let j := Z.of_nat (argmin m) in Some (if val_endpoint then j + 1 else j)
      else
        if negb (Qle_bool v (qnth a (length a - 1))) then Some (Z.of_nat (length a))  (* 557-559 *)
        else let j := Z.of_nat (argmin m) in
             if val_endpoint then (if 0 <? j then Some (j - 1) else None)    (* 562-568 *)
             else Some j
  end.

Inductive sres := SSlice (p : pslice) | SIndexError | SRuntimeError.

Definition bval (b : sbound) : option Q := match b with BVal v => Some v | _ => None end.

(* viscid/sliceutil.py:673-738 *)
Definition interiorize (a : list Q) (start_val stop_val : option Q) (start stop : option Z) (step : option Z) : sres :=
  let step := match step with None => 1 | Some s => s end in
  let n := Z.of_nat (length a) in
  let new_start : option (option Z) :=                                       (* 694-708 *)
    match start_val, start with
    | Some v, Some s =>
        match getitem a s with
        | None => None
        | Some x => if (0 <? step) && negb (Qle_bool x v) then Some (if s =? 0 then None else Some (s - 1))
                    else if (step <? 0) && negb (Qle_bool v x) then Some (if s =? -1 then None else Some (s + 1))
                    else Some (Some s)
        end
    | _, _ => Some start
    end in
  let new_stop : option (option Z) :=                                        (* 710-726 *)
    match stop_val, stop with
    | Some v, Some s =>
        if 0 <? step then
          match (if s =? 0 then getitem a 0 else getitem a (s - 1)) with
          | None => None
          | Some x => if negb (Qle_bool v x) then Some (if s =? -1 then None else Some (s + 1)) else Some (Some s)
          end
        else if step <? 0 then
          match (if (s =? -1) || (s =? n) then getitem a (-1) else getitem a (s + 1)) with
          | None => None
          | Some x => if negb (Qle_bool x v) then Some (if s =? 0 then None else Some (s - 1)) else Some (Some s)
          end
        else Some (Some s)
    | _, _ => Some stop
    end in
  match new_start, new_stop with
  | Some start, Some stop =>
      let p := PS start stop (Some step) in
      match getslice a p with                                                (* 729-737 *)
      | Some ((x :: _) as sub) =>
          let y := last sub x in
          let lo := if Qle_bool x y then x else y in
          let hi := if Qle_bool x y then y else x in
          let bad o := match o with
                       | Some v => negb (Qle_bool lo v) || negb (Qle_bool v hi)
                       | None => false end in
          if bad start_val || bad stop_val then SRuntimeError else SSlice p
      | _ => SIndexError                                                     (* subarr[0] *)
      end
  | _, _ => SIndexError
  end.

(* viscid/sliceutil.py:489-574: a slice *)
Definition std_sel2index (a : list Q) (start stop : sbound) (step : option Z) (val_endpoint interior : bool) : sres :=
  let val_endpoint := if interior then true else val_endpoint in             (* 491-494 *)
  let ustep := match step with None => 1 | Some s => s end in
  if (length a =? 0)%nat && (match start, stop with BVal _, _ | _, BVal _ => true | _, _ => false end)
  then SIndexError         (* crd_arr[0] at line 620 *)
  else
    match start_index a start ustep with
    | None => SSlice (PS (Some 0) (Some 0) (Some ustep))                     (* 529 *)
    | Some ustart =>
        let ustop := stop_index a stop ustep val_endpoint in
        if interior then interiorize a (bval start) (bval stop) ustart ustop step
        else SSlice (PS ustart ustop step)
    end.

(* viscid/sliceutil.py:576-588: a single value, or an array of values *)
Definition nearest_index (a : list Q) (v : Q) : nat := argmin (map (fun x => Some (qabs (x - v)%Q)) a).
Definition nearest_indices (a : list Q) (vs : list Q) : list nat := map (nearest_index a) vs.
