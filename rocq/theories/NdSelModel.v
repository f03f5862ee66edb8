(** Model of fill_nd_sel_list (viscid/sliceutil.py:141-266) and prune_comp_sel
    (42-64).
    SIMPLIFICATION: the items of the selection list are already classified: the
    text "name=item" is a pair of an optional name and an item, the spellings of
    Ellipsis and newaxis are one item each, and every other selector is a token.
    A slice-by-array that is selected again by name raises ValueError instead of
    IndexError in the code (the truth value of an array); here it is IndexError. *)
From Coq Require Export List ZArith Lia Bool.
Export ListNotations.

(** axis names: those of the user's axes, and the generated "new-x<i>".  A user
    may use either kind. *)
Inductive nm := NUser (k : Z) | NNew (i : nat).
Definition nm_eqb (a b : nm) : bool :=
  match a, b with
  | NUser x, NUser y => Z.eqb x y
  | NNew x, NNew y => Nat.eqb x y
  | _, _ => false
  end.

Inductive item := IEll | INew | IFull | ITok (k : Z).   (* IFull: slice(None) *)
Definition is_full (s : item) : bool := match s with IFull => true | _ => false end.
Definition is_new (s : item) : bool := match s with INew => true | _ => false end.
Definition is_ell (s : item) : bool := match s with IEll => true | _ => false end.

Notation ent := (option nm * item)%type.              (* "name=item" or "item" *)
Notation out := (nm * item * bool)%type.              (* name, selector, newdim flag *)

Inductive fres := FOk (l : list out) | FIndexError | FValueError | FAssert.

Fixpoint index_of (x : nm) (l : list nm) : option nat :=       (* list.index *)
  match l with
  | [] => None
  | y :: l' => if nm_eqb x y then Some 0%nat
               else match index_of x l' with Some i => Some (S i) | None => None end
  end.
Fixpoint set_at {A} (l : list A) (i : nat) (x : A) : list A :=
  match l, i with
  | [], _ => []
  | _ :: l', O => x :: l'
  | y :: l', S i' => y :: set_at l' i' x
  end.
Definition full_out (n : nm) : out := (n, IFull, false).
Definition o_name (o : out) : nm := fst (fst o).
Definition o_item (o : out) : item := snd (fst o).
Definition o_new (o : out) : bool := snd o.

(* 161-184: positions of Ellipsis and newaxis; None: more than one Ellipsis *)
Fixpoint scan (i : nat) (es : list ent) (ell : option nat) (news : list nat) : option (option nat * list nat) :=
  match es with
  | [] => Some (ell, news)
  | (_, s) :: es' =>
      match s with
      | IEll => match ell with None => scan (S i) es' (Some i) news | Some _ => None end
      | INew => scan (S i) es' ell (news ++ [i])
      | _ => scan (S i) es' ell news
      end
  end.

(* 209-245: the assembly loop *)
Fixpoint assemble (ax : list nm) (newax : list Z) (i : nat) (es : list ent)
                  (full : list out) (rem : list nm) (n_unnamed : nat) : fres :=
  match es with
  | [] => FOk (full ++ map full_out rem)                                       (* 247-250 *)
  | (name, s) :: es' =>
      let new := existsb (Z.eqb (Z.of_nat i)) newax in
      match name with
      | None =>
          if new then assemble ax newax (S i) es' (full ++ [(NNew n_unnamed, s, true)]) rem (S n_unnamed)
          else match rem with
               | [] => FIndexError                                             (* pop(0) *)
               | n :: rem' => assemble ax newax (S i) es' (full ++ [(n, s, false)]) rem' n_unnamed
               end
      | Some n =>
          if new then
            if existsb (nm_eqb n) (map o_name full) || existsb (nm_eqb n) ax then FIndexError
            else assemble ax newax (S i) es' (full ++ [(n, s, true)]) rem n_unnamed
          else
            match index_of n (map o_name full) with
            | Some j =>
                if is_full (o_item (nth j full (full_out n)))
                then assemble ax newax (S i) es' (set_at full j (n, s, false)) rem n_unnamed
                else FIndexError
            | None =>
                match index_of n rem with
                | None => FValueError
                | Some k =>
                    assemble ax newax (S i) es'
                      (full ++ map full_out (firstn k rem) ++ [(n, s, false)]) (skipn (S k) rem) n_unnamed
                end
            end
      end
  end.

(* 141-266 *)
Definition fill_nd_sel_list (es : list ent) (ax : list nm) : fres :=
  match es with
  | [(None, IEll)] => FOk (map full_out ax)                                    (* 144-150 *)
  | _ =>
      match scan 0 es None [] with
      | None => FIndexError                                                    (* 175-177 *)
      | Some (ell, news) =>
          let n_newax := length news in
          let n_named := length (filter (fun e => match fst e with Some _ => true | None => false end) es) in
          let n_named_new := length (filter (fun e => match fst e with Some _ => is_new (snd e) | None => false end) es) in
          let r :=
            match ell with
            | None => Some (es, map Z.of_nat news)
            | Some idx =>
                if (n_named_new <? n_named)%nat then None                      (* 194-198 *)
                else
                  let n_fill := (Z.of_nat (length ax) + Z.of_nat n_newax - (Z.of_nat (length es) - 1))%Z in
                  Some (firstn idx es ++ repeat (None, IFull) (Z.to_nat n_fill) ++ skipn (S idx) es,
                        map (fun i => if (i <? idx)%nat then Z.of_nat i else (Z.of_nat i + n_fill - 1)%Z) news)
            end in
          match r with
          | None => FIndexError
          | Some (es', newax) =>
              match assemble ax newax 0 es' [] ax 0 with
              | FOk full => if (length full =? length ax + n_newax)%nat then FOk full else FAssert  (* 263-264 *)
              | e => e
              end
          end
      end
  end.

(* 42-64: entries are lower-cased stripped names, or not strings (None);
   None: IndexError *)
Fixpoint prune_scan (comp : list nm) (i : nat) (l : list (option nm)) (found : option (nat * nat)) : option (option (nat * nat)) :=
  match l with
  | [] => Some found
  | s :: l' =>
      match s with
      | None => prune_scan comp (S i) l' found
      | Some x => match index_of x comp with
                  | None => prune_scan comp (S i) l' found
                  | Some c => match found with
                              | Some _ => None
                              | None => prune_scan comp (S i) l' (Some (i, c))
                              end
                  end
      end
  end.
Definition remove_at {A} (i : nat) (l : list A) : list A := firstn i l ++ skipn (S i) l.
(** the remaining selection list and the component: None is slice(None) *)
Definition prune_comp_sel (l : list (option nm)) (comp : list nm) : option (list (option nm) * option nat) :=
  match prune_scan comp 0 l None with
  | None => None
  | Some None => Some (l, None)
  | Some (Some (i, c)) => Some (remove_at i l, Some c)
  end.
