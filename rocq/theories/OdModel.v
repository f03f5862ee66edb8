(** Model of the OrderedDict backport: viscid/compat/ordered_dict_backport.py.
    Links are heap cells [PREV, NEXT, KEY] (lines 24-27) addressed by numbers;
    the sentinel is cell 0.  Keys are any type with decidable equality (a
    hashable Python type), the inherited dict and __map are [Dict.dict]. *)
From Verif Require Export Dict.

Section Od.
Context {K V : Type} (K_eq : forall a b : K, {a = b} + {a <> b}).

(** a link [PREV, NEXT, KEY]; the sentinel's KEY is None (line 41) *)
Record link := Link { lprev : nat; lnext : nat; lkey : option K }.

(** heap, next unused address, self.__map, and the inherited dict *)
Record od := Od { heap : nat -> link; fresh : nat; kmap : dict K nat; data : dict K V }.

Definition root : nat := 0.

(** link[0] = x, link[1] = x *)
Definition set_prev (h : nat -> link) (a x : nat) : nat -> link :=
  fun b => if Nat.eqb b a then Link x (lnext (h b)) (lkey (h b)) else h b.
Definition set_next (h : nat -> link) (a x : nat) : nat -> link :=
  fun b => if Nat.eqb b a then Link (lprev (h b)) x (lkey (h b)) else h b.
Definition put (h : nat -> link) (a : nat) (l : link) : nat -> link :=
  fun b => if Nat.eqb b a then l else h b.

Definition root_link : link := Link root root None.

(** __init__ without arguments, lines 37-43 *)
Definition od_empty : od := Od (fun _ => root_link) 1 [] [].

(** [key in self]: inherited dict.__contains__ *)
Definition od_mem (s : od) (k : K) : bool := dmem K_eq (data s) k.
(** self[key], inherited; None is a KeyError *)
Definition od_get (s : od) (k : K) : option V := dget K_eq (data s) k.
(** len(self), inherited *)
Definition od_len (s : od) : nat := length (data s).

(** __setitem__, lines 45-53.  Line 52 assigns the new link to last[1], then
    root[0], then the map entry, left to right. *)
Definition od_set (s : od) (k : K) (v : V) : od :=
  if od_mem s k then Od (heap s) (fresh s) (kmap s) (dset K_eq (data s) k v)
  else
    let last := lprev (heap s root) in
    let a := fresh s in
    let h1 := put (heap s) a (Link last root (Some k)) in
    let h2 := set_next h1 last a in
    let h3 := set_prev h2 root a in
    Od h3 (S a) (dset K_eq (kmap s) k a) (dset K_eq (data s) k v).

(** what an operation gives back *)
Inductive result := RNone | RVal (v : V) | RItem (k : K) (v : V) | RKeyError | RTypeError.

(** __delitem__, lines 55-62: the inherited deletion comes first (KeyError if
    the key is missing); __map.pop raises KeyError if the link is missing *)
Definition od_del (s : od) (k : K) : od * result :=
  match dget K_eq (data s) k with
  | None => (s, RKeyError)
  | Some _ =>
      let d := ddel K_eq (data s) k in
      match dget K_eq (kmap s) k with
      | None => (Od (heap s) (fresh s) (kmap s) d, RKeyError)
      | Some a =>
          let p := lprev (heap s a) in
          let n := lnext (heap s a) in
          (Od (set_prev (set_next (heap s) p n) n p) (fresh s) (ddel K_eq (kmap s) k) d, RNone)
      end
  end.

(** the loops of __iter__ (64-70) and __reversed__ (72-78), from [curr];
    None if the sentinel is not reached within [fuel] links *)
Fixpoint walk (step : link -> nat) (h : nat -> link) (fuel : nat) (curr : nat) : option (list (option K)) :=
  if Nat.eqb curr root then Some []
  else match fuel with
       | O => None
       | S f => match walk step h f (step (h curr)) with
                | Some l => Some (lkey (h curr) :: l)
                | None => None
                end
       end.

(** list(self) and list(reversed(self)); there are at most [fresh] links *)
Definition od_iter (s : od) : option (list (option K)) := walk lnext (heap s) (fresh s) (lnext (heap s root)).
Definition od_reversed (s : od) : option (list (option K)) := walk lprev (heap s) (fresh s) (lprev (heap s root)).

(** clear, lines 80-90.  [py2]: the builtin dict of __map has itervalues;
    without it the AttributeError is swallowed and only the inherited dict is
    cleared.  Emptying the dropped links (84) is not modelled: nothing refers
    to them afterwards. *)
Definition od_clear (py2 : bool) (s : od) : od :=
  if py2 then Od (put (heap s) root root_link) (fresh s) [] []
  else Od (heap s) (fresh s) (kmap s) [].

(** popitem, lines 92-113.  A None KEY (only the sentinel has one) or a key
    missing from a table is a KeyError. *)
Definition od_popitem (s : od) (last : bool) : od * result :=
  match data s with
  | [] => (s, RKeyError)
  | _ =>
      let h := heap s in
      let a := if last then lprev (h root) else lnext (h root) in
      let h' := if last then set_prev (set_next h (lprev (h a)) root) root (lprev (h a))
                else set_prev (set_next h root (lnext (h a))) (lnext (h a)) root in
      match lkey (h a) with
      | None => (Od h' (fresh s) (kmap s) (data s), RKeyError)
      | Some k =>
          match dget K_eq (kmap s) k with
          | None => (Od h' (fresh s) (kmap s) (data s), RKeyError)
          | Some _ =>
              let m' := ddel K_eq (kmap s) k in
              match dget K_eq (data s) k with
              | None => (Od h' (fresh s) m' (data s), RKeyError)
              | Some v => (Od h' (fresh s) m' (ddel K_eq (data s) k), RItem k v)
              end
          end
      end
  end.

(** update with an iterable of pairs, lines 169-172 (also what the loops over
    mappings amount to, 162-167); __init__ with arguments, line 43 *)
Definition od_update (s : od) (l : list (K * V)) : od := fold_left (fun s kv => od_set s (fst kv) (snd kv)) l s.

(** pop, lines 178-189; [default] is None when the marker is left in place *)
Definition od_pop (s : od) (k : K) (default : option V) : od * result :=
  if od_mem s k then
    match od_get s k with
    | Some v => let '(s', e) := od_del s k in (s', match e with RNone => RVal v | _ => e end)
    | None => (s, RKeyError)
    end
  else (s, match default with Some d => RVal d | None => RKeyError end).

(** setdefault, lines 191-196 *)
Definition od_setdefault (s : od) (k : K) (d : V) : od * result :=
  if od_mem s k then (s, match od_get s k with Some v => RVal v | None => RKeyError end)
  else (od_set s k d, RVal d).

(** items, lines 125-127; values, 121-123: None if an iteration does not end
    or a lookup raises *)
Fixpoint lookups (s : od) (l : list (option K)) : option (list (K * V)) :=
  match l with
  | [] => Some []
  | Some k :: l' => match od_get s k, lookups s l' with
                    | Some v, Some r => Some ((k, v) :: r)
                    | _, _ => None
                    end
  | None :: _ => None
  end.
Definition od_items (s : od) : option (list (K * V)) :=
  match od_iter s with Some l => lookups s l | None => None end.
Definition od_values (s : od) : option (list V) :=
  match od_items s with Some l => Some (map snd l) | None => None end.

(** copy, lines 221-223: cls(self) runs [for key in other: self[key] = other[key]] *)
Definition od_copy (s : od) : option od :=
  match od_items s with Some l => Some (od_update od_empty l) | None => None end.

(** fromkeys, lines 225-234 *)
Definition od_fromkeys (l : list K) (v : V) : od := fold_left (fun s k => od_set s k v) l od_empty.

(** __eq__ against another OrderedDict, lines 241-242; [veq] is == on values *)
Fixpoint items_eq (veq : V -> V -> bool) (l l' : list (K * V)) : bool :=
  match l, l' with
  | [], [] => true
  | (k, v) :: r, (k', v') :: r' => (if K_eq k k' then true else false) && veq v v' && items_eq veq r r'
  | _, _ => false
  end.
Definition od_eq (veq : V -> V -> bool) (s t : od) : option bool :=
  if Nat.eqb (od_len s) (od_len t) then
    match od_items s, od_items t with
    | Some l, Some l' => Some (items_eq veq l l')
    | _, _ => None
    end
  else Some false.

(** the mutating operations a history is made of *)
Inductive op :=
  | Set_ (k : K) (v : V) | Del (k : K) | Pop (k : K) (default : option V) | PopItem (last : bool)
  | SetDefault (k : K) (v : V) | Update (l : list (K * V)) | Clear.

Definition od_step (py2 : bool) (s : od) (o : op) : od * result :=
  match o with
  | Set_ k v => (od_set s k v, RNone)
  | Del k => od_del s k
  | Pop k d => od_pop s k d
  | PopItem l => od_popitem s l
  | SetDefault k v => od_setdefault s k v
  | Update l => (od_update s l, RNone)
  | Clear => (od_clear py2 s, RNone)
  end.

Fixpoint od_run (py2 : bool) (s : od) (h : list op) : od * list result :=
  match h with
  | [] => (s, [])
  | o :: h' => let '(s1, r) := od_step py2 s o in
               let '(s2, rs) := od_run py2 s1 h' in (s2, r :: rs)
  end.
End Od.
Arguments link : clear implicits.
Arguments od : clear implicits.
Arguments result : clear implicits.
Arguments op : clear implicits.
