(** Model of [resolve_path], [find_item], [find_items], viscid/vutil.py 170-236.

    SIMPLIFICATIONS: a hierarchy is a tree of dict-like objects, which have items (by distinct keys) and attributes, and of values, which have neither and raise on indexing;
    indexing finds a key of the items only (a dict; the groups of h5py also take a path of keys, and so the first statement finds more there);
    fnmatch.fnmatchcase(key, pattern) is any function of the two. Names are lists of characters. *)
From Coq Require Import Ascii List Bool Arith.
Import ListNotations.

Definition name := list ascii.
Definition name_eq : forall a b : name, {a = b} + {a <> b} := list_eq_dec ascii_dec.
Inductive node := Value (v : nat) | Dict (items attrs : list (name * node)).
Fixpoint lookup (k : name) (l : list (name * node)) : option node :=
  match l with [] => None | (k', v) :: r => if name_eq k' k then Some v else lookup k r end.
(* dset[key]: None for KeyError, TypeError or IndexError *)
Definition index (d : node) (k : name) : option node := match d with Value _ => None | Dict items _ => lookup k items end.
(* 205-211: the items, then the attributes *)
Definition children (d : node) : list (name * node) := match d with Value _ => [] | Dict items attrs => items ++ attrs end.
(* loc.strip('/') *)
Definition is_slash (c : ascii) : bool := if ascii_dec c "/" then true else false.
Fixpoint lstrip (s : name) : name := match s with [] => [] | c :: r => if is_slash c then lstrip r else s end.
Definition strip (s : name) : name := rev (lstrip (rev (lstrip s))).
(* split('/') *)
Fixpoint split_slash (s : name) : list name :=
  match s with
  | [] => [[]]
  | c :: r => if is_slash c then [] :: split_slash r else match split_slash r with p :: ps => (c :: p) :: ps | [] => [[c]] end
  end.
(* "/".join *)
Fixpoint join (l : list name) : name := match l with [] => [] | [p] => p | p :: ps => p ++ "/"%char :: join ps end.

Section Search.
Variable glob : name -> name -> bool.
(* one search: where it is, what is left of the pattern, the path so far *)
Definition search := (node * list name * list name)%type.
(* 199-218; 216-217: with first, no more than one of the children *)
Definition advance (first : bool) (s : search) : list search :=
  match s with
  | (d, [], path) => [s]                                                                       (* not reached: all searches are of one length *)
  | (d, p :: ps, path) =>
      match index d p with
      | Some c => [(c, ps, path ++ [p])]
      | None => let found := filter (fun kc => glob (fst kc) p) (children d) in
                map (fun kc => (snd kc, ps, path ++ [fst kc])) (if first then firstn 1 found else found)
      end
  end.
Definition pending (l : list search) : bool := existsb (fun s => match s with (_, [], _) => false | _ => true end) l.   (* any(searches) *)
(* 195-221 *)
Fixpoint loop (fuel : nat) (first : bool) (l : list search) : list search :=
  match fuel with O => l | S k => if pending l then loop k first (flat_map (advance first) l) else l end.
(* 187-230: the values and their paths; None: KeyError *)
Definition resolve (d : node) (loc : name) (first : bool) : option (list (node * name)) :=
  match index d loc with
  | Some v => Some [(v, loc)]
  | None => let segs := split_slash (strip loc) in
            match map (fun s => match s with (v, _, path) => (v, join path) end) (loop (S (length segs)) first [(d, segs, [])]) with
            | [] => None
            | x :: r => Some (if first then [x] else x :: r)
            end
  end.
(* 232-238 *)
Definition find_items (d : node) (loc : name) : option (list node) := option_map (map fst) (resolve d loc false).
Definition find_item (d : node) (loc : name) : option node := match resolve d loc true with Some ((v, _) :: _) => Some v | _ => None end.
End Search.
