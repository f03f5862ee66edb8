(** Model of colours given as text: viscid/vutil.py [_hexchar2int], [_string_colors_as_hex] (238-288) and the parts of [prepare_lines] for them (359-366, 383-440).

    SIMPLIFICATIONS: a text is # and hexadecimal digits, which are their values from 0 to 15, or a name, which is the four bytes matplotlib's converter gives for it (rounded, 275-276); the buffer of digits (all texts of one length) is decoded text by text. *)
From Coq Require Import List Bool Arith.
Import ListNotations.

Inductive text := Hex (digits : list nat) | Name (rgba : list nat).
Inductive err := ValueError | NotImplementedError.
Inductive res A := Ok (a : A) | Raise (e : err).
Arguments Ok {A}. Arguments Raise {A}.

(** 260-280: re.match looks at the beginning only: six digits or more stay, three or more are doubled; with fewer matplotlib's converter raises. When all texts have six digits or more (253-257) nothing is done, which is the same. *)
Definition as_hex1 (t : text) : option (list nat) :=
  match t with
  | Hex ds => if 6 <=? length ds then Some ds
              else if 3 <=? length ds then Some (flat_map (fun d => [d; d]) ds) else None
  | Name rgba => Some (flat_map (fun b => [b / 16; b mod 16]) rgba)
  end.
Fixpoint as_hex_all (ts : list text) : option (list (list nat)) :=
  match ts with
  | [] => Some []
  | t :: ts' => match as_hex1 t, as_hex_all ts' with Some d, Some ds => Some (d :: ds) | _, _ => None end
  end.
(** 283-288: [len(s) == 9] with the #; [s.ljust(9, 'f')] *)
Definition fill_alpha (ds : list (list nat)) : list (list nat) :=
  if existsb (fun d => length d =? 8) ds then map (fun d => d ++ repeat 15 (8 - length d)) ds else ds.
(** 376-421 for an array of shape (1, k), flattened *)
Definition spread {A} (npts : list nat) (l : list A) : res (list A) :=
  let N := list_sum npts in
  let k := length l in
  if k =? 1 then Ok (flat_map (fun x => repeat x N) l)
  else
    if k =? length npts then Ok (concat (map (fun xn => repeat (fst xn) (snd xn)) (combine l npts)))
    else if k =? N then Ok l
    else if (k =? 3) || (k =? 4) then Ok (flat_map (fun x => repeat x N) l)
    else if N =? 0 then Raise ValueError
    else if k mod N =? 0 then Ok l else Raise ValueError.
(** two digits are a byte *)
Fixpoint bytes (ds : list nat) : list nat :=
  match ds with hi :: lo :: ds' => (16 * hi + lo) :: bytes ds' | _ => [] end.
(** 425-440: all of eight digits or all of six *)
Definition decode (ds : list (list nat)) : res (list (list nat)) :=
  if forallb (fun d => length d =? 8) ds then Ok (map bytes ds)
  else if forallb (fun d => length d =? 6) ds then Ok (map bytes ds)
  else Raise NotImplementedError.
(** the colours of the points of lines with [npts] points, for at least one text *)
Definition colours (npts : list nat) (ts : list text) : res (list (list nat)) :=
  match as_hex_all ts with
  | None => Raise ValueError
  | Some ds => match spread npts (fill_alpha ds) with Raise e => Raise e | Ok l => decode l end
  end.
