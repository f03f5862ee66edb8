(** Model of the run length codec of viscid/readers/_jrrle.f90 (wrnenc, wrndec)
    and of the packing of quantised values into pairs of records (wrn2, rdn2).
    Characters are their byte codes ([Z]); a record is the list of bytes of one
    line.  The floating point part of wrn2/rdn2 is in QuantModel.v. *)
From Coq Require Export List ZArith Lia Bool. Export ListNotations.
Open Scope Z_scope.

(* ------------------------------------------------------------------ *)
(** ** Encoder *)

(* _jrrle.f90:698-706 and 711-719: emit the current run of [ic] copies of [ir] *)
Definition emit (ic ir : Z) : list Z :=
  if ic =? 1 then [ir] else [ic + 170; ir].

(* _jrrle.f90:693-710: the loop; [i2] is kept as the list written so far *)
Fixpoint enc_loop (rest : list Z) (ick ir ic : Z) (i2 : list Z) : list Z * Z :=
  match rest with
  | [] => (i2 ++ emit ic ir, ick)                                   (* 711-719 *)
  | x :: rest' =>
      let ick := ick + x in                                         (* 694 *)
      if x =? ir then enc_loop rest' ick ir (ic + 1) i2             (* 695-696 *)
      else enc_loop rest' ick x 1 (i2 ++ emit ic ir)                (* 698-708 *)
  end.

(** Fortran mod: sign of the dividend *)
Definition fmod (a b : Z) : Z := Z.rem a b.

(* _jrrle.f90:682-728.  The argument i1(0:n) is the non-empty list of codes; the
   arrays i1(0:63), i2(-1:63) and c*72 bound its length, [None] is an access
   outside them. *)
Definition wrnenc (codes : list Z) : option (list Z) :=
  match codes with
  | [] => None
  | x :: rest =>
      if (64 <? Z.of_nat (length codes)) then None
      else
        let (body, ick) := enc_loop rest x x 1 [] in                (* 689-719 *)
        if (64 <? Z.of_nat (length body)) then None                 (* i2(0:63) *)
        else Some ((33 + fmod ick 92) :: body)                      (* 720-726 *)
  end.

(* ------------------------------------------------------------------ *)
(** ** Decoder *)

Inductive dec_result :=
| DOk (data : list Z)        (* returns n = length data - 1 and the data *)
| DLong                      (* n=-5: no end of record within 67 characters *)
| DCount                     (* n=-5: more than 64 values *)
| DSum                       (* n=-5: checksum error *)
| DUndef.                    (* reads or writes outside expandedDat / uninitialised *)

(** Fortran formatted read '(A)' into character*72: truncate or pad with blanks *)
Definition read72 (line : list Z) : list Z :=
  firstn 72 line ++ repeat 32 (72 - length line).

(* _jrrle.f90:529-571: [j] counts the characters looked at (the 1-based index of
   the next one is j+1), [acc] is expandedDat(-1..i).  expandedDat has room for
   69 entries from -1 up to 67. *)
Fixpoint expand (buf : list Z) (j : Z) (acc : list Z) (fuel : nat) {struct fuel} : option (list Z) + dec_result :=
  match fuel with
  | O => inr DLong
  | S fuel' =>
      if 67 <? j + 1 then inr DLong                                 (* 535-539 *)
      else match buf with
           | [] => inr DUndef
           | h :: buf' =>
               if h =? 32 then inl (Some acc)                       (* 545-547 *)
               else if 127 <? h then                                (* 551 *)
                 match buf' with
                 | [] => inr DUndef
                 | h2 :: buf'' =>                                   (* 553-562 *)
                     let acc' := acc ++ repeat h2 (Z.to_nat (h - 170)) in
                     if 69 <? Z.of_nat (length acc') then inr DUndef
                     else expand buf'' (j + 2) acc' fuel'
                 end
               else                                                 (* 565-568 *)
                 let acc' := acc ++ [h] in
                 if 69 <? Z.of_nat (length acc') then inr DUndef
                 else expand buf' (j + 1) acc' fuel'
           end
  end.

Definition sum (l : list Z) : Z := fold_right Z.add 0 l.

(* _jrrle.f90:493-612 (the end-of-file branch is not part of this function) *)
Definition wrndec (line : list Z) : dec_result :=
  match expand (read72 line) 0 [] 73 with
  | inr e => e
  | inl None => DUndef
  | inl (Some []) => DUndef                                         (* expandedDat(-1) unset *)
  | inl (Some (ck :: data)) =>
      if 64 <? Z.of_nat (length data) then DCount                   (* 577-584 *)
      else if ck =? 33 + fmod (sum data) 92 then DOk data           (* 587-602 *)
      else DSum
  end.

(* ------------------------------------------------------------------ *)
(** ** Packing of (sign, level) pairs *)

(* _jrrle.f90:666-672 *)
Definition pack (v : bool * Z) : Z * Z :=
  let (neg, i3) := v in
  let i1 := i3 / 94 in
  let i2 := i3 - 94 * i1 in
  ((if neg then i1 + 47 else i1) + 33, i2 + 33).

(* _jrrle.f90:458-467 *)
Definition unpack (c : Z * Z) : bool * Z :=
  let r1 := fst c - 33 in
  let r2 := snd c - 33 in
  if 47 <=? r1 then (true, r2 + 94 * (r1 - 47)) else (false, r2 + 94 * r1).

(* _jrrle.f90:657-676: two records for every 64 values *)
Fixpoint write_levels (vs : list (bool * Z)) (fuel : nat) : option (list (list Z)) :=
  match vs, fuel with
  | [], _ => Some []
  | _, O => None
  | _, S fuel' =>
      let blk := map pack (firstn 64 vs) in
      match wrnenc (map fst blk), wrnenc (map snd blk), write_levels (skipn 64 vs) fuel' with
      | Some r1, Some r2, Some rs => Some (r1 :: r2 :: rs)
      | _, _, _ => None
      end
  end.

(* _jrrle.f90:426-475: [n] values still to read.  A missing record, a decoding
   error or a record of the wrong length makes rdn2 return n = -2 ([None]). *)
Fixpoint read_levels (recs : list (list Z)) (n : Z) (fuel : nat) {struct fuel} : option (list (bool * Z)) :=
  if n <=? 0 then Some []
  else match fuel with
       | O => None
       | S fuel' =>
           match recs with
           | r1 :: r2 :: recs' =>
               match wrndec r1, wrndec r2 with
               | DOk d1, DOk d2 =>
                   let nk := Z.min 64 n in
                   if (Z.of_nat (length d1) =? nk) && (Z.of_nat (length d2) =? nk)    (* 436, 447 *)
                   then match read_levels recs' (n - 64) fuel' with
                        | Some vs => Some (map unpack (combine d1 d2) ++ vs)
                        | None => None
                        end
                   else None
               | _, _ => None
               end
           | _ => None
           end
       end.
