(** Model of the node tree of viscid/tree.py: parent links, breadth first
    search through the parents and inherited info. *)
From Verif Require Export Dict.
Open Scope nat_scope.

(** Nodes are identified by a number, which plays the role of id(obj). *)
Definition node := nat.
Definition n_eq := Nat.eq_dec.

Section Bfs.
Context {S : Type}.
Variable parents : node -> list node.
(** condition(obj, getvalue(obj)); it may have effects on a state, as the
    closures of get_all_info and print_info_tree have *)
Variable cond : S -> node -> S * bool.

(* viscid/tree.py:86-104: one level; [inl] is a return out of the search *)
Fixpoint scan_level (s : S) (visited : list node) (level next : list node)
  : S * (node + list node * list node) :=
  match level with
  | [] => (s, inr (visited, next))
  | o :: level' =>
      if in_dec n_eq o visited then scan_level s visited level' next         (* 88-89 *)
      else
        let (s, hit) := cond s o in
        if hit then (s, inl o)                                               (* 91-100 *)
        else scan_level s (o :: visited) level' (next ++ parents o)          (* 102-103 *)
  end.

(** [BFuel] is only the model running out of fuel *)
Inductive bfs_result := BFound (n : node) | BNone | BFuel.

(* viscid/tree.py:83-104: while len(next_level) > 0 *)
Fixpoint bfs_loop (fuel : nat) (s : S) (visited next_level : list node) {struct fuel} : S * bfs_result :=
  match next_level with
  | [] => (s, BNone)                                                         (* 105-108 *)
  | _ =>
      match fuel with
      | O => (s, BFuel)
      | Datatypes.S fuel' =>
          match scan_level s visited next_level [] with
          | (s, inl n) => (s, BFound n)
          | (s, inr (visited, next)) => bfs_loop fuel' s visited next
          end
      end
  end.

(* viscid/tree.py:46-108 *)
Definition parent_bfs (fuel : nat) (s : S) (self : node) : S * bfs_result :=
  let (s, hit) := cond s self in
  if hit then (s, BFound self)                                               (* 70-79 *)
  else bfs_loop fuel s [] (parents self).                                    (* 81-82 *)
End Bfs.

Section Info.
Context {K V : Type} (K_eq : forall a b : K, {a = b} + {a <> b}).
Variable parents : node -> list node.
Definition infos := node -> dict K V.

Inductive res (A : Type) := ROk (a : A) | RKeyError | RNameError | RAttributeError | RFuel.
Arguments ROk {A} _. Arguments RKeyError {A}. Arguments RNameError {A}. Arguments RAttributeError {A}. Arguments RFuel {A}.

(* viscid/tree.py:110-111 *)
Definition has_info (I : infos) (n : node) (k : K) : bool := dmem K_eq (I n) k.
(* viscid/tree.py:113-120; [default] is None when no default is given *)
Definition get_info (I : infos) (n : node) (k : K) (default : option V) : res V :=
  match dget K_eq (I n) k, default with
  | Some v, _ => ROk v
  | None, Some d => ROk d
  | None, None => RKeyError
  end.

(* viscid/tree.py:147-160 *)
Definition find_info_owner (fuel : nat) (I : infos) (self : node) (k : K) : res node :=
  match snd (parent_bfs parents (fun (_ : unit) o => (tt, has_info I o k)) fuel tt self) with
  | BFound n => ROk n
  | BNone => RKeyError
  | BFuel => RFuel
  end.

(* viscid/tree.py:162-171 *)
Definition find_info (fuel : nat) (I : infos) (self : node) (k : K) (default : option V) : res V :=
  match find_info_owner fuel I self k with
  | ROk n => get_info I n k default
  | RKeyError => match default with Some d => ROk d | None => RKeyError end
  | RNameError => RNameError | RAttributeError => RAttributeError | RFuel => RFuel
  end.

(* viscid/tree.py:144-145 *)
Definition set_info (I : infos) (n : node) (k : K) (v : V) : infos :=
  fun m => if n_eq m n then dset K_eq (I n) k v else I m.

(* viscid/tree.py:173-182 *)
Definition update_info (fuel : nat) (I : infos) (self : node) (k : K) (v : V) (fallback : bool) : res infos :=
  match find_info_owner fuel I self k with
  | ROk n => ROk (set_info I n k v)
  | RKeyError => if fallback then ROk (set_info I self k v) else RKeyError
  | RNameError => RNameError | RAttributeError => RAttributeError | RFuel => RFuel
  end.

(* viscid/tree.py:124-128: the loop of the closure in get_all_info *)
Definition collect (I : infos) (all : dict K V) (o : node) : dict K V * bool :=
  (fold_left (fun all '(k, v) => if dmem K_eq all k then all else dset K_eq all k v) (I o) all, false).
(* viscid/tree.py:122-130 *)
Definition get_all_info (fuel : nat) (I : infos) (self : node) : dict K V :=
  fst (parent_bfs parents (collect I) fuel [] self).

(* viscid/tree.py:184-212.  [attr n] is what getattr(n, name) gives, None when
   hasattr is false.  The condition evaluates getattr(parent, ...) where
   "parent" is the variable that is only assigned after the search: a NameError
   as soon as some visited node has the attribute. *)
Definition find_attr {A} (fuel : nat) (attr : node -> option A) (self : node) (default : option A) : res A :=
  match parent_bfs parents (fun (_ : unit) o => (tt, match attr o with Some _ => true | None => false end)) fuel tt self with
  | (_, BFound _) => RNameError                                        (* 201 *)
  | (_, BNone) => match default with Some d => ROk d | None => RAttributeError end
  | (_, BFuel) => RFuel
  end.
End Info.
Arguments ROk {A} _. Arguments RKeyError {A}. Arguments RNameError {A}. Arguments RAttributeError {A}. Arguments RFuel {A}.

(** What can be assigned to Node.time *)
Inductive tval := TNum (seconds : Z) | TDatetime (t : Z) | TTimedelta (t : Z) | TNone.

(* viscid/tree.py:229-241: the branches for dates and time differences convert
   the value and then do nothing with it.  SIMPLIFICATION: numbers are whole
   seconds; the NoBasetimeError of the datetime branch is not modelled. *)
Definition set_time {K V} (K_eq : forall a b : K, {a = b} + {a <> b}) (time_key : K) (mk : Z -> V)
           (I : @infos K V) (n : node) (v : tval) : @infos K V :=
  match v with
  | TDatetime _ => I
  | TTimedelta _ => I
  | TNum x => set_info K_eq I n time_key (mk x)
  | TNone => I
  end.

(* viscid/tree.py:36-38 *)
Definition prepare_child (self : node) (parents : list node) : list node :=
  if in_dec n_eq self parents then parents else parents ++ [self].
(* viscid/tree.py:40-44: list.remove drops the first occurrence *)
Fixpoint tear_down_child (self : node) (parents : list node) : list node :=
  match parents with
  | [] => []
  | p :: ps => if n_eq p self then ps else p :: tear_down_child self ps
  end.
