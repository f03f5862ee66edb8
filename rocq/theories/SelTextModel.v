(** Model of selections written as text: viscid/sliceutil.py, the text branches of [raw_sel2sel_list] 96-109, the names in [fill_nd_sel_list] 157-159, [standardize_sel] 304-325 and [standardize_value] 327-442.

    SIMPLIFICATIONS: blanks are spaces; brackets are balanced and not nested and there is no @ in the text, so that commas in brackets are passed over directly; texts of times and lists of
    true and false and the empty list are not modelled, and a list that has a coordinate has nothing else ([_is_time_str] is taken to be false), nor infinities, nan and complex numbers with a real part. *)
From Verif Require Import TabModel.
From Coq Require Import String Ascii List Bool Arith ZArith QArith.
Import ListNotations.

(* texts by characters: strip, lower, replace, in and split of str, as used at 97-108, 159, 307-311, 364-433 *)
Definition text := list ascii.
Definition chars (s : string) : text := list_ascii_of_string s.
Definition is (c d : ascii) : bool := if ascii_dec c d then true else false.
Definition text_is (s : text) (w : string) : bool := if list_eq_dec ascii_dec s (chars w) then true else false.
Definition has (c : ascii) (s : text) : bool := existsb (is c) s.
Definition replace (a b : ascii) (s : text) : text := map (fun c => if is c a then b else c) s.
Definition lower (c : ascii) : ascii := if ((65 <=? code c) && (code c <=? 90))%nat then ascii_of_nat (code c + 32) else c.
Definition strip (s : text) : text := rev (skip is_space (rev (skip is_space s))).
Fixpoint split_on (d : ascii) (s : text) : list text :=
  match s with
  | [] => [[]]
  | c :: r => if is c d then [] :: split_on d r else match split_on d r with p :: ps => (c :: p) :: ps | [] => [[c]] end
  end.

(** ** numbers, as int(), float() and complex() of sliceutil.py 422-431 read them *)
Definition sign (s : text) : Z * text :=
  match s with c :: r => if is c "-" then ((-1)%Z, r) else if is c "+" then (1%Z, r) else (1%Z, s) | [] => (1%Z, s) end.
(* int() *)
Definition parse_int (s : text) : option Z :=
  let '(g, r) := sign (strip s) in match r with [] => None | _ => if forallb is_digit r then Some (g * Z.of_nat (whole r))%Z else None end.
Definition dec_value (a b : text) : Q := (inject_Z (Z.of_nat (whole a)) + inject_Z (Z.of_nat (whole b)) / inject_Z (10 ^ Z.of_nat (length b)))%Q.
(* what may come after the digits: nothing, or an exponent *)
Definition scaled (q : Q) (r : text) : option Q :=
  match r with [] => Some q | c :: e => if is (lower c) "e" then match parse_int e with Some z => Some (q * Qpower 10 z)%Q | None => None end else None end.
(* float() *)
Definition parse_float (s : text) : option Q :=
  let '(g, r) := sign (strip s) in
  let a := take is_digit r in
  match skip is_digit r with
  | c :: r' => if is c "." then let b := take is_digit r' in match a, b with [], [] => None | _, _ => scaled (inject_Z g * dec_value a b) (skip is_digit r') end
               else match a with [] => None | _ => scaled (inject_Z g * dec_value a []) (c :: r') end
  | [] => match a with [] => None | _ => Some (inject_Z g * dec_value a [])%Q end
  end.
(* complex() of a purely imaginary number, the imaginary part *)
Definition parse_imag (s : text) : option Q :=
  match rev (strip s) with c :: r => if is c "j" then parse_float (rev r) else None | [] => None end.

(** ** values, 327-442 *)
Inductive value := VNone | VTrue | VFalse | VEll | VInt (z : Z) | VAt (q : Q) | VInts (l : list Z) | VAts (l : list Q) | VBad.
(* words between blanks *)
Fixpoint words (s : text) : list text :=
  match s with
  | [] => []
  | c :: r => if is_space c then words r else match r with [] => [[c]] | d :: _ => if is_space d then [c] :: words r else match words r with w :: ws => (c :: w) :: ws | [] => [[c]] end end
  end.
Fixpoint all_some {A} (l : list (option A)) : option (list A) :=
  match l with [] => Some [] | Some x :: r => match all_some r with Some y => Some (x :: y) | None => None end | None :: _ => None end.
Definition bracketed (s : text) : bool := match s with c :: r => is c "[" && match rev r with d :: _ => is d "]" | [] => false end | [] => false end.
(* 386-418 *)
Definition std_array (s : text) : value :=
  let inner := replace "f" "j" (replace "," " " (removelast (tl s))) in
  if has "j" inner then match all_some (map parse_imag (words inner)) with Some l => VAts l | None => VBad end
  else match all_some (map parse_int (words inner)) with Some l => VInts l | None => VBad end.
(* 364-433 *)
Definition std_value (s0 : text) : value :=
  let s := map lower (strip s0) in
  if text_is s "newaxis" || text_is s "numpy.newaxis" || text_is s "np.newaxis" || text_is s "none" || text_is s "" then VNone
  else if text_is s "true" then VTrue else if text_is s "false" then VFalse
  else if text_is s "..." || text_is s "ellipsis" then VEll
  else if bracketed s then std_array s
  else match parse_int s with
       | Some z => VInt z
       | None => if has "j" s || has "f" s then match parse_imag (replace "f" "j" s) with Some q => VAt q | None => VBad end
                 else match parse_float s with Some q => VAt q | None => VBad end
       end.

(** ** selections, 304-325 *)
Inductive sel := One (v : value) | Slice (start stop step : value) | Bad.
Definition bad (v : value) : bool := match v with VBad => true | _ => false end.
Definition good_step (v : value) : bool := match v with VNone | VInt _ | VTrue | VFalse => true | _ => false end.   (* isinstance(True, int) *)
(* 306-317 *)
Definition std_sel (s0 : text) : sel :=
  let s := map lower (strip s0) in
  match s with
  | [] => Bad                                                                                  (* sel[0]: IndexError *)
  | _ => if bracketed s then (let v := std_array s in if bad v then Bad else One v)
         else if has ":" s then
           match map std_value (split_on ":" s) with
           | [a; b] => if bad a || bad b then Bad else Slice a b VNone
           | [a; b; c] => if bad a || bad b || bad c || negb (good_step c) then Bad else Slice a b c
           | _ => Bad
           end
         else let v := std_value s in if bad v then Bad else One v
  end.

(** ** the whole text *)
(* 102-108: commas outside of brackets *)
Fixpoint split_top (inside : bool) (s : text) : list text :=
  match s with
  | [] => [[]]
  | c :: r => if is c "," && negb inside then [] :: split_top false r
              else match split_top (if is c "[" then true else if is c "]" then false else inside) r with p :: ps => (c :: p) :: ps | [] => [[c]] end
  end.
(* 97-108 *)
Definition raw_list (s : text) : list text := split_top false (replace "_" "," s).
(* fill_nd_sel_list 157-159: s.split('=', 1) *)
Fixpoint cut (s : text) : option (text * text) :=
  match s with [] => None | c :: r => if is c "=" then Some ([], r) else match cut r with Some (a, b) => Some (c :: a, b) | None => None end end.
Definition named (s : text) : option text * text := match cut s with Some (a, b) => (Some (strip a), strip b) | None => (None, s) end.
(* all of it, one item after another *)
Definition parse_selection (s : text) : list (option text * sel) := map (fun p => let '(n, t) := named p in (n, std_sel t)) (raw_list s).
