(** Model of viscid/readers/ggcm_logfile.py: [_parse] 49-98, [_parse_value] 100-136, [_parse_param] 138-150.

    SIMPLIFICATIONS: blanks are spaces; the lines are without their ends; the order of the keys of the dict is not kept; floats are rationals (infinities and nan are kept as text); int() does not take underscores between digits. *)
From Verif Require Import TabModel SelTextModel.
From Coq Require Import String Ascii List Bool Arith ZArith QArith.
Import ListNotations.

Inductive entry := EInt (z : Z) | EFloat (q : Q) | EText (t : text).
(* the type of the elements of np.array(l) *)
Inductive kind := KInt | KFloat | KText.
Inductive param := PInt (z : Z) | PFloat (q : Q) | PWord (t : text) | PArray (k : kind) (l : list entry) | PParts (l : list text) | PText (t : text).
(* float('nan'), float('-inf'), ... *)
Definition nonfinite (s : text) : bool := let r := map lower (snd (sign (strip s))) in text_is r "nan" || text_is r "inf" || text_is r "infinity".
Definition kind_of (l : list entry) : kind :=
  if existsb (fun e => match e with EText _ => true | _ => false end) l then KText else if existsb (fun e => match e with EFloat _ => true | _ => false end) l then KFloat else KInt.
(* 124-130 *)
Definition parse_entry (s : text) : entry := match parse_int s with Some z => EInt z | None => match parse_float s with Some q => EFloat q | None => EText (strip s) end end.
(* re.match of X+(\s*d\s*X+)+ , each X+ with a sign before it if [g]: only the first two items matter *)
Definition token (p : ascii -> bool) (g : bool) (s : text) : option text :=
  let r := match s with c :: r => if g && is c "-" then r else s | [] => s end in match take p r with [] => None | _ => Some (skip p r) end.
Definition two (p : ascii -> bool) (g : bool) (d : ascii) (s : text) : bool :=
  match token p g s with
  | None => false
  | Some r => match skip is_space r with c :: r' => is c d && match token p g (skip is_space r') with Some _ => true | None => false end | [] => false end
  end.
Definition numeric (c : ascii) : bool := is_digit c || is c ".".
Definition is_letter (c : ascii) : bool := let l := code (lower c) in ((97 <=? l) && (l <=? 122))%nat.
Definition part (c : ascii) : bool := is_letter c || is_digit c || is c "." || is c "-".
(* 100-136 *)
Definition parse_value (s : text) : param :=
  match parse_int s with
  | Some z => PInt z
  | None => match parse_float s with
            | Some q => PFloat q
            | None => if nonfinite s then PWord (strip s)
                      else let s := strip s in
                           if two numeric true "," s then let l := map parse_entry (split_on "," s) in PArray (kind_of l) l
                           else if two part false ":" s then PParts (split_on ":" s)
                           else PText s
            end
  end.
(* 138-150; None: ValueError *)
Definition parse_param (s : text) : option (text * param) := match split_on "|" s with [k; v] => Some (strip k, parse_value (strip v)) | _ => None end.
Fixpoint after (w s : text) {struct w} : option text := match w, s with [], _ => Some s | c :: w', d :: s' => if is c d then after w' s' else None | _ :: _, [] => None end.
Definition begins (w : string) (s : text) : bool := match after (chars w) s with Some _ => true | None => false end.
(* 55-56 *)
Definition timestep (line : text) : bool := begins "cp=" (strip line) || begins "step=" (strip line).
(* 69 *)
Definition word_char (c : ascii) : bool := is_letter c || is_digit c || is c "_".
Definition type_line (s : text) : option text :=
  match take (fun c => is c "-") s, skip (fun c => is c "-") s with
  | _ :: _, c :: r => if is c "+" then
                        match take (fun c => is c "-") r, after (chars " type -- ") (skip (fun c => is c "-") r) with
                        | _ :: _, Some r' => match take word_char r' with [] => None | t => Some t end
                        | _, _ => None
                        end
                      else None
  | _, _ => None
  end.
(* 78-79 *)
Definition class_line (s : text) : option text :=
  match take (fun c => is c "=") s, after (chars " class == ") (skip (fun c => is c "=") s) with
  | _ :: _, Some (c :: r) => Some (strip (c :: r))
  | _, _ => None
  end.
(* 39-45 *)
Definition watched (c : text) : bool := existsb (text_is c) ["ggcm_mhd"; "mrc_domain"; "mrc_crds"; "ggcm_mhd_ic"; "ggcm_dipole"; "ggcm_mhd_step"; "ggcm_mhd_fld"]%string.
(* the dict: the newest first *)
Definition info := list (text * param).
Definition put (k : text) (v : param) (i : info) : info := (k, v) :: i.
Definition lookup (k : text) (i : info) : option param := option_map snd (find (fun p => if list_eq_dec ascii_dec (fst p) k then true else false) i).
Definition key (c k : text) : text := (c ++ "_"%char :: k)%list.
(* 51-90; None: StopIteration *)
Fixpoint go (lines : list text) (armed : option text) (i : info) {struct lines} : option info :=
  match lines with
  | [] => Some i
  | line :: rest =>
      if timestep line then Some i
      else let s := strip line in
           match armed with
           | Some c => match parse_param s with
                       | Some (k, v) => go rest armed (put (key c k) v i)
                       | None => match type_line s with
                                 | Some t => go rest armed (put (key c (chars "type")) (PText t) i)
                                 | None => match s with [] => go rest None i | _ => go rest armed i end
                                 end
                       end
           | None => match class_line s with
                     | Some c => if watched c
                                 then match rest with a :: b :: rest' => if timestep a || timestep b then None else go rest' (Some c) i | _ => None end
                                 else go rest None i
                     | None => go rest None i
                     end
           end
  end.
(* 20-28 *)
Definition mhd_types : list string := ["MT_PRIMITIVE"; "MT_SEMI_CONSERVATIVE_GGCM"; "MT_SEMI_CONSERVATIVE"; "MT_FULLY_CONSERVATIVE"; "MT_FULLY_CONSERVATIVE_CC"; "MT_GKEYLL"]%string.
(* indexing of a list *)
Definition pick (l : list string) (z : Z) : option string :=
  let n := Z.of_nat (length l) in let z := (if z <? 0 then z + n else z)%Z in if ((0 <=? z) && (z <? n))%Z then nth_error l (Z.to_nat z) else None.
(* 92-98; None: TypeError *)
Definition mhd_type (i : info) : option string :=
  match lookup (chars "ggcm_mhd_fld_mhd_type") i with
  | None => Some "UNKNOWN"%string
  | Some (PInt z) => Some (match pick mhd_types z with Some s => s | None => "UNKNOWN"%string end)
  | Some _ => None
  end.
(* 49-98 *)
Definition read_log (lines : list text) : option info :=
  match go lines None [] with
  | None => None
  | Some i => match mhd_type i with Some s => Some (put (chars "ggcm_mhd_fld_mhd_type_str") (PText (chars s)) i) | None => None end
  end.
