(** Model of [make_fwd_slice], viscid/sliceutil.py:835-987. *)
From Verif Require Export PySlice.
Open Scope Z_scope.

(** exceptions the function itself can raise *)
Inductive exn := IndexError | AssertionError | ZeroDivisionError.
Inductive res (A : Type) := Ok (a : A) | Err (e : exn).
Arguments Ok {A} _. Arguments Err {A} _.

(** one entry of a basic numpy selection.
    SIMPLIFICATION: selection by ndarray/list is not modelled. *)
Inductive entry := ESlice (s : pslice) | EInt (i : Z) | ENew.

(** what the second slice does with the axis: [::1], [::-1], axis dropped
    ([None] in the code), or [np.newaxis] ("NEWAXIS" in the code) *)
Inductive second := SFwd | SRev | SDrop | SNew.

(* viscid/sliceutil.py:914-971 (the body for isinstance(slc, slice)) *)
Definition fwd_slice (L : Z) (s : pslice) (rev : bool) : res (pslice * second) :=
  let step := match p_step s with Some x => x | None => 1 end in          (* 915 *)
  let start := match p_start s with Some x => x | None => 0 end in        (* 916 *)
  let stop := match p_stop s with Some x => x | None => L end in          (* 917 *)
  let start := if start <? 0 then start + L else start in                 (* 918-919 *)
  let stop := if stop <? 0 then stop + L else stop in                     (* 920-921 *)
  if (start <? 0) || (stop <? 0) then Err IndexError                      (* 925-927 *)
  else if (L <? start) || (L <? stop) then Err IndexError                 (* 928-930 *)
  else
    let finish (start : Z) (stop : option Z) (step : Z) (d : second) :=
      if negb ((0 <=? start) && (start <=? L)) then Err AssertionError    (* 964-967 *)
      else if negb (match stop with
                    | None => true
                    | Some b => ((start =? 0) && (b =? 0)) || (start <? b)
                    end) then Err AssertionError                          (* 968-969 *)
      else if negb (0 <? step) then Err AssertionError                    (* 970 *)
      else Ok (PS (Some start) stop (Some step), d) in                    (* 971 *)
    if rev then
      if step <? 0 then                                                   (* 936-944 *)
        let step := - step in
        let start := match p_start s with None => L - 1 | Some _ => start end in
        match p_stop s with
        | None => finish (L - 1 - start) None step SFwd
        | Some _ => finish (L - 1 - start) (Some (L - 1 - stop)) step SFwd
        end
      else if step =? 0 then Err ZeroDivisionError                        (* the % on line 947 *)
      else                                                                (* 945-948 *)
        let a := L - stop in
        let b := L - start in
        let a := a + ((b - 1 - a) mod step) in
        finish a (Some b) step SRev
    else if step <? 0 then                                                (* 949-961 *)
      let step := - step in
      let start := match p_start s with None => L - 1 | Some _ => start end in
      match p_stop s with
      | None =>
          let a := 0 in
          let b := start + 1 in
          let a := (b - 1 - a) mod step in
          finish a (Some b) step SRev
      | Some _ =>
          let a := stop + 1 in
          let b := start + 1 in
          let a := a + ((b - 1 - a) mod step) in
          finish a (Some b) step SRev
      end
    else finish start (Some stop) step SFwd.

(* viscid/sliceutil.py:913-980 (one iteration of the loop over axes) *)
Definition fwd1 (L : Z) (e : entry) (rev : bool) : res (entry * second) :=
  match e with
  | ESlice s => match fwd_slice L s rev with
                | Ok (f, d) => Ok (ESlice f, d)
                | Err x => Err x
                end
  | EInt i => Ok (EInt (if rev then (L - 1) - i else i), SDrop)           (* 973-976 *)
  | ENew => Ok (ENew, SNew)                                               (* 978-979 *)
  end.

(* list.insert(i, x), used on line 902-903 *)
Fixpoint list_insert {A} (i : nat) (x : A) (l : list A) : list A :=
  match i, l with
  | O, _ => x :: l
  | S i', [] => [x]
  | S i', y :: l' => y :: list_insert i' x l'
  end.

(* viscid/sliceutil.py:900-903: newaxis positions get a length one axis *)
Definition is_new (e : entry) : bool := match e with ENew => true | _ => false end.
Fixpoint newax_inds_from (k : nat) (es : list entry) : list nat :=
  match es with
  | [] => []
  | e :: es' => if is_new e then k :: newax_inds_from (S k) es' else newax_inds_from (S k) es'
  end.
Definition insert_newaxes (shape : list Z) (es : list entry) : list Z :=
  fold_left (fun sh i => list_insert i 1 sh) (newax_inds_from 0 es) shape.

(* viscid/sliceutil.py:913-981: the loop (izip stops with the shortest list;
   positions it does not reach keep slice(None) / slice(None, None, 1)) *)
Fixpoint fwd_loop (es : list entry) (shape : list Z) (revs : list bool)
  : res (list entry * list second) :=
  match es with
  | [] => Ok ([], [])
  | e :: es' =>
      match shape, revs with
      | L :: shape', r :: revs' =>
          match fwd1 L e r with
          | Err x => Err x
          | Ok (f, d) => match fwd_loop es' shape' revs' with
                         | Err x => Err x
                         | Ok (fs, ds) => Ok (f :: fs, d :: ds)
                         end
          end
      | _, _ => Ok (map (fun _ => ESlice (PS None None None)) es, map (fun _ => SFwd) es)
      end
  end.

(* viscid/sliceutil.py:983-986: drop newaxis from the first slice; cull the
   dropped axes from the second and turn the rest into selections *)
Definition final_first (fs : list entry) : list entry := filter (fun e => negb (is_new e)) fs.
Fixpoint final_second (ds : list second) : list entry :=
  match ds with
  | [] => []
  | SFwd :: ds' => ESlice full_fwd :: final_second ds'
  | SRev :: ds' => ESlice full_rev :: final_second ds'
  | SDrop :: ds' => final_second ds'
  | SNew :: ds' => ENew :: final_second ds'
  end.

(* viscid/sliceutil.py:835-987 with cull_second=True.
   SIMPLIFICATION: shape/slices/reverse are already lists (891-898). *)
Definition make_fwd_slice (shape : list Z) (slices : list entry) (reverse : list bool)
  : res (list entry * list entry) :=
  let shape := insert_newaxes shape slices in
  let slices := slices ++ repeat (ESlice (PS None None None)) (length shape - length slices) in (* 907 *)
  let reverse := reverse ++ repeat false (length slices - length reverse) in                    (* 908 *)
  match fwd_loop slices shape reverse with
  | Err x => Err x
  | Ok (fs, ds) => Ok (final_first fs, final_second ds)
  end.
