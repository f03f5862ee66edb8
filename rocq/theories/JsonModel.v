(** Model of viscid/vjson.py: the text handed to the standard JSON parser.
    A text is a list of code points.  [isspace] is [str.isspace] for one code
    point; it is a parameter so that the theorems hold for whatever set of white
    space the Python version uses (see [JsonSpec.space_ok] for what is assumed). *)
From Coq Require Import List ZArith Bool Arith.
Import ListNotations.
Local Open Scope Z_scope.

Notation text := (list Z).
Definition NL := 10.      (* \n *)
Definition DQ := 34.      (* double quote *)
Definition HASH := 35.    (* # *)
Definition SQ := 39.      (* ' *)
Definition COMMA := 44.
Definition SLASH := 47.
Definition RBRACKET := 93.
Definition RBRACE := 125.

(** Python's [s.split('\n')] and ['\n'.join(lines)] (vjson.py 76, 111) *)
Fixpoint split_nl (s : text) : list text :=
  match s with
  | [] => [[]]
  | c :: s' => match split_nl s' with
               | l :: ls => if c =? NL then [] :: l :: ls else (c :: l) :: ls
               | [] => [[c]]
               end
  end.
Fixpoint join_nl (ls : list text) : text :=
  match ls with
  | [] => []
  | [l] => l
  | l :: ls' => l ++ NL :: join_nl ls'
  end.

(** Python's [s.find(sub, start)] *)
Fixpoint is_prefix (sub s : text) : bool :=
  match sub, s with
  | [], _ => true
  | a :: sub', b :: s' => (a =? b) && is_prefix sub' s'
  | _ :: _, [] => false
  end.
Fixpoint find_in (s sub : text) : option nat :=
  if is_prefix sub s then Some O
  else match s with
       | [] => None
       | _ :: s' => option_map S (find_in s' sub)
       end.
Definition find_from (s sub : text) (start : nat) : option nat :=
  option_map (Nat.add start) (find_in (skipn start s) sub).

(** vjson.py 28-34: the earliest occurrence of any of the substrings and the
    length of the substring found there (the first one listed on ties) *)
Fixpoint earliest (s : text) (subs : list text) (start : nat) (best : option (nat * nat))
  : option (nat * nat) :=
  match subs with
  | [] => best
  | sub :: subs' =>
      let best' := match find_from s sub start, best with
                   | Some i, Some (j, n) => if (i <? j)%nat then Some (i, length sub) else Some (j, n)
                   | Some i, None => Some (i, length sub)
                   | None, _ => best
                   end in
      earliest s subs' start best'
  end.

(** vjson.py 15-39; every round moves [start] forward, so [S (length s)] rounds
    are enough when no substring is empty *)
Fixpoint find_all (s : text) (subs : list text) (start fuel : nat) {struct fuel} : list nat :=
  match fuel with
  | O => []
  | S fuel' => match earliest s subs start None with
               | None => []
               | Some (i, n) => i :: find_all s subs (i + n) fuel'
               end
  end.

Definition count (c : Z) (s : text) : nat := length (filter (Z.eqb c) s).

(** vjson.py 81-87: cut at the first comment marker with an even number of double
    and of single quotes before it *)
Fixpoint cut_at (l : text) (locs : list nat) : text :=
  match locs with
  | [] => l
  | loc :: locs' =>
      if (Nat.even (count DQ (firstn loc l)) && Nat.even (count SQ (firstn loc l)))%bool
      then firstn loc l else cut_at l locs'
  end.
Definition remove_comment (l : text) : text :=
  cut_at l (find_all l [[HASH]; [SLASH; SLASH]] 0 (S (length l))).

Section WithSpace.
Context (isspace : Z -> bool).

(** Python's [str.rstrip()] *)
Fixpoint rstrip (s : text) : text :=
  match s with
  | [] => []
  | c :: s' => match rstrip s' with
               | [] => if isspace c then [] else [c]
               | r => c :: r
               end
  end.

(** last element of a list: Python's [l[-1]], IndexError as [None] *)
Fixpoint last_of {A} (l : list A) : option A :=
  match l with
  | [] => None
  | [a] => Some a
  | _ :: l' => last_of l'
  end.

(** [lines[i] = v] *)
Fixpoint set_at {A} (l : list A) (i : nat) (v : A) : list A :=
  match l, i with
  | [], _ => []
  | _ :: l', O => v :: l'
  | a :: l', S i' => a :: set_at l' i' v
  end.

(** vjson.py 94-103: look at the closing brackets of line [l].  [done] are the
    lines before it, [last] is [last_nonempty] ([None] for -1), [rm] is
    [remove_at].  The result [None] is the IndexError of line 99 on an empty
    line. *)
Fixpoint closers (l : text) (locs : list nat) (done : list text) (last : option nat)
    (rm : list nat) {struct locs} : option (list text * list nat) :=
  match locs with
  | [] => Some (done, rm)
  | loc :: locs' =>
      let pre := rstrip (firstn loc l) in
      match last_of pre with
      | None =>
          match last with
          | None => closers l locs' done last rm
          | Some k =>
              let prev := nth k done [] in
              match last_of prev with
              | None => None
              | Some c => if c =? COMMA
                          then closers l locs' (set_at done k (removelast prev)) last rm
                          else closers l locs' done last rm
              end
          end
      | Some c => if c =? COMMA then closers l locs' done last (rm ++ [(length pre - 1)%nat])
                  else closers l locs' done last rm
      end
  end.

(** vjson.py 104-106: delete the positions one after the other; [j] positions
    are gone already *)
Fixpoint delete_at (l : text) (j : nat) (rm : list nat) : text :=
  match rm with
  | [] => l
  | loc :: rm' => delete_at (firstn (loc - j) l ++ skipn (S (loc - j)) l) (S j) rm'
  end.

(** vjson.py 79-109: the loop over the lines *)
Fixpoint clean_lines (todo done : list text) (last : option nat) {struct todo}
  : option (list text) :=
  match todo with
  | [] => Some done
  | l0 :: todo' =>
      let l := rstrip (remove_comment l0) in
      match l with
      | [] => clean_lines todo' (done ++ [l]) last
      | _ =>
          match closers l (find_all l [[RBRACE]; [RBRACKET]] 0 (S (length l))) done last [] with
          | None => None
          | Some (done', rm) =>
              let l' := delete_at l 0 rm in
              clean_lines todo' (done' ++ [l'])
                (match l' with [] => last | _ => Some (length done) end)
          end
      end
  end.

(** vjson.py 67-111: the text given to [json.loads] *)
Definition cleaned (s : text) : option text :=
  option_map join_nl (clean_lines (split_nl s) [] None).
End WithSpace.
