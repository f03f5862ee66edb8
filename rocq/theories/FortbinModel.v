(** Model of viscid/readers/ggcm_fortbin.py: [_read_header] 169-217, [inquire_next] 105-132, [inquire_all_fields] 70-81, [read_field] 45-68, [FortbinDataWrapper.__array__] 252-267, [_make_template] 331-356,
    and the positions of the template used for other files 310-322.

    SIMPLIFICATIONS: a file is its list of bytes; names are bytes below 128, so decoding keeps them; a value is its four bytes, the most significant first; a header with a negative length ends the
    reading (numpy would make an array with no such length); a header with no axes likewise (numpy makes the product of no lengths a float). *)
From Verif Require Import FldModel.
From Coq Require Import List ZArith Bool Arith.
Import ListNotations.
Open Scope Z_scope.

Definition byte := Z.
(* struct.unpack: a signed number of four bytes, the least significant first *)
Definition int_le (b : list byte) : option Z :=
  match b with
  | [b0; b1; b2; b3] => let n := b0 + 256 * b1 + 65536 * b2 + 16777216 * b3 in Some (if n <? 2147483648 then n else n - 4294967296)
  | _ => None
  end.
Definition ordered (little : bool) (b : list byte) : list byte := if little then b else rev b.
Definition int_at (little : bool) (f : list byte) : option Z := int_le (ordered little (firstn 4 f)).
(* n numbers *)
Fixpoint ints (little : bool) (n : nat) (f : list byte) : option (list Z) :=
  match n with
  | O => Some []
  | S n' => match int_at little f, ints little n' (skipn 4 f) with Some z, Some r => Some (z :: r) | _, _ => None end
  end.
(* 184-191: None: IOError *)
Definition marker (f : list byte) : option bool :=
  match firstn 4 f with
  | [2; 0; 0; 0] => Some true
  | [0; 0; 0; 2] => Some false
  | _ => None
  end.
Definition blank (b : byte) : bool := (b =? 32) || ((9 <=? b) && (b <=? 13)).
Fixpoint drop_blank (s : list byte) : list byte := match s with [] => [] | b :: r => if blank b then drop_blank r else s end.
Definition strip (s : list byte) : list byte := rev (drop_blank (rev (drop_blank s))).
Record meta := Meta { m_little : bool; m_header : nat; m_dims : list Z; m_nelem : nat; m_nbytes : nat; m_pos : nat }.
(* 169-217 and 121-127: the name and what is in the header; None when there are no more fields *)
Definition read_header (f : list byte) (pos : nat) : option (list byte * meta) :=
  let f := skipn pos f in
  match marker f with
  | None => None
  | Some little =>
      match int_at little (skipn 4 f), int_at little (skipn 8 f) with
      | Some _, Some nd =>
          let n := Z.to_nat nd in
          match ints little n (skipn 12 f) with
          | None => None
          | Some dims =>
              if (nd <=? 0) || existsb (fun d => d <? 0) dims then None
              else
                let name := strip (firstn 80 (skipn (12 + 4 * n) f)) in
                let h := (12 + 4 * n + 160)%nat in
                let nelem := Z.to_nat (prod dims) in
                match name with [] => None | _ => Some (name, Meta little h dims nelem (h + 4 * nelem) pos) end
          end
      | _, _ => None
      end
  end.
Definition same (a b : list byte) : bool := leqb a b.
Definition seen (name : list byte) (l : list (list byte * meta)) : bool := existsb (fun p => same name (fst p)) l.
(* 70-81: [step] is the size of the first field of the file (81, 165-167) *)
Fixpoint inquire (fuel : nat) (f : list byte) (step pos : nat) (l : list (list byte * meta)) : list (list byte * meta) :=
  match fuel with
  | O => l
  | S k => match read_header f pos with
           | None => l
           | Some (name, m) => inquire k f step (pos + step) (if seen name l then l else l ++ [(name, m)])
           end
  end.
(* 331-356; None: the file can not be opened *)
Record item := Item { i_name : list byte; i_dims : list Z; i_pos : nat }.
Definition template (f : list byte) : option (list item) :=
  match read_header f 0 with
  | None => None
  | Some (_, m) => Some (map (fun p => Item (fst p) (m_dims (snd p)) (m_pos (snd p))) (inquire (S (length f)) f (m_nbytes m) 0 []))
  end.
(* np.fromfile *)
Fixpoint words (little : bool) (n : nat) (f : list byte) : option (list (list byte)) :=
  match n with
  | O => Some []
  | S n' => if (length (firstn 4 f) <? 4)%nat then None
            else match words little n' (skipn 4 f) with Some r => Some (rev (ordered little (firstn 4 f)) :: r) | None => None end
  end.
(* 45-68, 252-267; None: ValueError or RuntimeError.  The array in Fortran order is flattened in this order again and has then the shape zyx *)
Definition read (f : list byte) (it : item) : option (nd (list byte)) :=
  match read_header f (i_pos it) with
  | None => None
  | Some (name, m) =>
      if negb (same name (i_name it)) then None
      else match words (m_little m) (m_nelem m) (skipn (m_pos m + m_header m) f) with
           | None => None
           | Some data =>
               if negb (leqb (m_dims m) (i_dims it)) then None
               else Some (ND (rev (m_dims m)) (fun js => nth (Z.to_nat (ravel (rev (m_dims m)) js)) data []))
           end
  end.
