(** Reference for C28: an insertion ordered map is just the list of its
    (key, value) pairs, oldest key first. *)
From Verif Require Export OdModel.

Section Spec.
Context {K V : Type} (K_eq : forall a b : K, {a = b} + {a <> b}).

Definition has (l : list (K * V)) (k : K) : bool :=
  existsb (fun e => if K_eq (fst e) k then true else false) l.
Definition lookup (l : list (K * V)) (k : K) : option V :=
  option_map snd (find (fun e => if K_eq (fst e) k then true else false) l).
(** a known key keeps its place, a new one goes to the end *)
Definition assign (l : list (K * V)) (k : K) (v : V) : list (K * V) :=
  if has l k then map (fun e => if K_eq (fst e) k then (k, v) else e) l else l ++ [(k, v)].
Definition drop (l : list (K * V)) (k : K) : list (K * V) :=
  filter (fun e => if K_eq (fst e) k then false else true) l.

Definition spec_step (l : list (K * V)) (o : op K V) : list (K * V) * result K V :=
  match o with
  | Set_ k v => (assign l k v, RNone)
  | Del k => if has l k then (drop l k, RNone) else (l, RKeyError)
  | Pop k d => match lookup l k, d with
               | Some v, _ => (drop l k, RVal v)
               | None, Some x => (l, RVal x)
               | None, None => (l, RKeyError)
               end
  | PopItem newest =>
      match (if newest then rev l else l) with
      | [] => (l, RKeyError)
      | (k, v) :: r => (if newest then rev r else r, RItem k v)
      end
  | SetDefault k v => match lookup l k with
                      | Some x => (l, RVal x)
                      | None => (l ++ [(k, v)], RVal v)
                      end
  | Update u => (fold_left (fun l e => assign l (fst e) (snd e)) u l, RNone)
  | Clear => ([], RNone)
  end.

Fixpoint spec_run (l : list (K * V)) (h : list (op K V)) : list (K * V) * list (result K V) :=
  match h with
  | [] => (l, [])
  | o :: h' => let '(l1, r) := spec_step l o in
               let '(l2, rs) := spec_run l1 h' in (l2, r :: rs)
  end.
End Spec.
