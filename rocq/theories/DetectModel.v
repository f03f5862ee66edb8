(** Model of the choice of a reader: viscid/readers/vfile.py, [serialize_subclasses] 21-29, [detect_type] 230-271, [resolve_type] 273-292.

    SIMPLIFICATIONS: the classes below VFile are a tree (a class with two bases is in it twice, as in the code); [k_match] is whether [_detector] is given, matches the name of the file and [_detector_func] is true of it;
    names are ASCII. *)
From Verif Require Import SelTextModel.
From Coq Require Import String Ascii List Bool Arith ZArith.
Import ListNotations.

(* a class: its name, _priority, the test of a file name, and __subclasses__() in the order of definition *)
Inductive kls := K (k_name : text) (k_prio : Z) (k_match : text -> bool) (k_subs : list kls).
Definition k_name (k : kls) : text := match k with K n _ _ _ => n end.
Definition k_prio (k : kls) : Z := match k with K _ p _ _ => p end.
Definition k_match (k : kls) : text -> bool := match k with K _ _ m _ => m end.
Definition k_subs (k : kls) : list kls := match k with K _ _ _ s => s end.
(* vfile.py 21-29 *)
Fixpoint serialize (k : kls) : list kls :=
  match k with K _ _ _ subs => ((fix each (l : list kls) : list kls := match l with [] => [] | s :: r => (each r ++ serialize s)%list end) subs ++ [k])%list end.
(* 258: sort(key=priority, reverse=True), which keeps the order of equal ones *)
Fixpoint insert (x : kls) (l : list kls) : list kls := match l with [] => [x] | y :: r => if (k_prio y <=? k_prio x)%Z then x :: l else y :: insert x r end.
Fixpoint sort (l : list kls) : list kls := match l with [] => [] | x :: r => insert x (sort r) end.
(* w in s *)
Fixpoint prefix (w s : text) {struct w} : bool := match w, s with [], _ => true | c :: w', d :: s' => is c d && prefix w' s' | _ :: _, [] => false end.
Fixpoint within (w s : text) : bool := prefix w s || match s with [] => false | _ :: r => within w r end.
(* 230-271 *)
Definition detect (root : kls) (fname : text) (prefer : text) : option kls :=
  let matched := sort (filter (fun k => k_match k fname) (serialize root)) in
  match matched with
  | [] => None
  | k :: _ => Some (match prefer with
                    | [] => k
                    | _ => fold_left (fun ret c => if within (map lower prefer) (map lower (k_name c)) then c else ret) (rev matched) k
                    end)
  end.
(* 275-278, 285-288: cut the first 'file' out *)
Fixpoint drop_file (s : text) : text :=
  if prefix (chars "file") s then skipn 4 s else match s with [] => [] | c :: r => c :: drop_file r end.
(* 275: replace blanks, _ and - by nothing, lower *)
Definition clean (s : text) : text := map lower (filter (fun c => negb (is c " " || is c "_" || is c "-")) s).
(* 273-292; the subclasses from the last to the first *)
Fixpoint resolve (k : kls) (ftype : text) : option kls :=
  let ftype := drop_file (clean ftype) in
  match k with
  | K n _ _ subs =>
      match (fix each (l : list kls) : option kls := match l with [] => None | s :: r => match each r with Some x => Some x | None => resolve s ftype end end) subs with
      | Some x => Some x
      | None => if within ftype (drop_file (map lower n)) then Some k else None
      end
  end.
