(** Model of viscid/npdatetime.py [as_isotime] 187-239: times in other notations as ISO 8601.

    SIMPLIFICATIONS: whether numpy takes a text for a time (223-226) is a parameter; blanks are spaces; a text is a list of characters; the regular expressions (204, 219) are matched on the parts
    between the colons, which is the same as there are no colons in the parts. *)
From Verif Require Import TabModel SelTextModel.
From Coq Require Import String Ascii List Bool Arith.
Import ListNotations.

(* str.upper *)
Definition upper (c : ascii) : ascii := if ((97 <=? code c) && (code c <=? 122))%nat then ascii_of_nat (code c - 32) else c.
(* 203 *)
Definition clean (s : text) : text := skip (fun c => is c "U" || is c "T") (map upper (strip s)).
Definition digits_n (n : nat) (s : text) : bool := (length s =? n)%nat && forallb is_digit s.
(* the last part: one or two digits, perhaps a dot and any digits *)
Definition last_ok (s : text) : bool :=
  let a := take is_digit s in
  ((length a =? 1)%nat || (length a =? 2)%nat) && match skip is_digit s with [] => true | c :: r => is c "." && forallb is_digit r end.
(* 204 *)
Definition full_match (t : text) : bool :=
  match split_on ":" t with
  | y :: r => digits_n 4 y && ((3 <=? length r)%nat && (length r <=? 5)%nat) && forallb (digits_n 2) (removelast r) && last_ok (last r [])
  | [] => false
  end.
(* 219 *)
Definition date_match (t : text) : bool := match split_on ":" t with [y; m; d] => digits_n 4 y && digits_n 2 m && digits_n 2 d | _ => false end.
Definition zfill (n : nat) (s : text) : text := (repeat "0"%char (n - length s) ++ s)%list.
Fixpoint join (l : list text) : text := match l with [] => [] | [p] => p | p :: r => (p ++ ":"%char :: join r)%list end.
(* 211-217 *)
Definition rewrite_full (t : text) : text :=
  match split_on ":" (replace "." ":" t) with
  | y :: r =>
      let tsp := zfill 4 y :: map (zfill 2) (firstn 5 r) in
      let t' := (join tsp ++ match skipn 5 r with f :: _ => "."%char :: f | [] => [] end)%list in
      (replace ":" "-" (firstn 10 t') ++ "T"%char :: skipn 11 t')%list
  | [] => []
  end.
(* 201-229, one text *)
Definition isotime1 (valid : text -> bool) (s : text) : option text :=
  let t := clean s in
  let r := if full_match t then rewrite_full t else if date_match t then replace ":" "-" t else t in
  if valid r then Some r else None.
(* 194-199, 231-239 *)
Inductive times := Scalar (s : text) | TList (l : list text) | TArray (l : list text).
Definition as_isotime (valid : text -> bool) (t : times) : option times :=
  match t with
  | Scalar s => match isotime1 valid s with Some r => Some (Scalar r) | None => None end
  | TList l => match all_some (map (isotime1 valid) l) with Some r => Some (TList r) | None => None end
  | TArray l => match all_some (map (isotime1 valid) l) with Some _ => Some (TArray l) | None => None end
  end.
