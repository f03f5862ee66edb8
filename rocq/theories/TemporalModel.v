(** Model of DatasetTemporal (viscid/dataset.py:457-744).  A child is a nat (its
    identity); times are rationals.
    SIMPLIFICATION: prepare_child / tear_down_child (parents lists) are modelled in
    TreeModel.v; resolving a DeferredChild is the identity; times are floats, not
    datetimes. *)
From Verif Require Export SelModel.
Open Scope Z_scope.

Record tds := TDS { t_children : list (Q * nat); t_active : option nat }.

(* viscid/dataset.py:467-472 *)
Definition tds_empty : tds := TDS [] None.

(** list.sort(key=itemgetter(0)): a stable sort, by insertion.  An element is put
    before those that come after it in the list and have the same key. *)
Fixpoint t_insert (x : Q * nat) (l : list (Q * nat)) : list (Q * nat) :=
  match l with
  | [] => [x]
  | y :: l' => if Qle_bool (fst x) (fst y) then x :: l else y :: t_insert x l'
  end.
Fixpoint t_sort (l : list (Q * nat)) : list (Q * nat) :=
  match l with [] => [] | x :: l' => t_insert x (t_sort l') end.

(* viscid/dataset.py:474-487; a child without a time gets 0.0 (477-479) *)
Definition tds_add (s : tds) (time : option Q) (child : nat) (set_active : bool) : tds :=
  let time := match time with Some t => t | None => 0%Q end in
  TDS (t_sort (t_children s ++ [(time, child)]))
      (if set_active then Some child else t_active s).

(* viscid/dataset.py:496-500 *)
Definition tds_remove_all (s : tds) : tds := TDS [] (t_active s).

(** standardized selections *)
Inductive tsel := TInt (i : Z) | TFloat (v : Q) | TSlice (b1 b2 : sbound) (step : option Z).

Inductive tres (A : Type) := TOk (x : A) | TIndexError | TRuntimeError | TAttributeError | TValueError | TTypeError.
Arguments TOk {A} _. Arguments TIndexError {A}. Arguments TRuntimeError {A}.
Arguments TAttributeError {A}. Arguments TValueError {A}. Arguments TTypeError {A}.

(* viscid/dataset.py:518-541 (_slice_time) *)
Inductive tidx := IInt (i : Z) | ISlice (p : pslice).
Definition slice_time (s : tds) (sel : tsel) (val_endpoint interior : bool) : tres tidx :=
  let times := map fst (t_children s) in
  match sel with
  | TInt i => TOk (IInt i)
  | TFloat v => match times with
                | [] => TIndexError                       (* sliceutil.py:620, crd_arr[0] *)
                | _ => TOk (IInt (Z.of_nat (nearest_index times v)))
                end
  | TSlice b1 b2 step =>
      match std_sel2index times b1 b2 step val_endpoint interior with
      | SSlice p => TOk (ISlice p)
      | SIndexError => TIndexError
      | SRuntimeError => TRuntimeError
      end
  end.

(* viscid/dataset.py:543-556 (_time_slice_to_iterator) and 566-586, 588-592:
   get_times, a list of children *)
Definition get_times (s : tds) (sel : tsel) (val_endpoint interior : bool) : tres (list (Q * nat)) :=
  match slice_time s sel val_endpoint interior with
  | TOk (IInt i) => match getitem (t_children s) i with Some c => TOk [c] | None => TIndexError end
  | TOk (ISlice p) => match getslice (t_children s) p with Some cs => TOk cs | None => TValueError end
  | TIndexError => TIndexError | TRuntimeError => TRuntimeError | TAttributeError => TAttributeError
  | TValueError => TValueError | TTypeError => TTypeError
  end.

(* viscid/dataset.py:558-564 *)
Definition nr_times (s : tds) (sel : tsel) (val_endpoint interior : bool) : tres nat :=
  match get_times s sel val_endpoint interior with
  | TOk l => TOk (length l)
  | TIndexError => TIndexError | TRuntimeError => TRuntimeError | TAttributeError => TAttributeError
  | TValueError => TValueError | TTypeError => TTypeError
  end.

(* viscid/dataset.py:719-727: self.children[idx][1].resolve(); for a slice the
   [1] takes the second (time, child) pair, which has no resolve *)
Definition get_child (s : tds) (sel : tsel) : tres nat :=
  match slice_time s sel true false with
  | TOk (IInt i) => match getitem (t_children s) i with Some c => TOk (snd c) | None => TIndexError end
  | TOk (ISlice p) => match getslice (t_children s) p with
                      | Some (_ :: _ :: _) => TAttributeError
                      | Some _ => TIndexError
                      | None => TValueError
                      end
  | TIndexError => TIndexError | TRuntimeError => TRuntimeError | TAttributeError => TAttributeError
  | TValueError => TValueError | TTypeError => TTypeError
  end.

(* viscid/dataset.py:507-513 *)
Definition activate (s : tds) (sel : tsel) : tres tds :=
  match get_child s sel with
  | TOk c => TOk (TDS (t_children s) (Some c))
  | TIndexError => TIndexError | TRuntimeError => TRuntimeError | TAttributeError => TAttributeError
  | TValueError => TValueError | TTypeError => TTypeError
  end.

(* viscid/dataset.py:729-741; [in_child c item] is the answer of the active
   child's own __contains__; "in None" is a TypeError *)
Inductive titem := XInt (i : Z) | XTimeStr (v : Q) (* the string "<v>f" *) | XOther (k : nat).
Definition contains (in_child : nat -> titem -> bool) (s : tds) (x : titem) : tres bool :=
  let fallback := match t_active s with None => TTypeError | Some c => TOk (in_child c x) end in
  match x with
  | XInt i => if (0 <? i) && (i <? Z.of_nat (length (t_children s))) then TOk true else fallback
  | XTimeStr v =>
      match t_children s with
      | [] => TIndexError
      | c0 :: _ => TOk (Qle_bool (fst c0) v && Qle_bool v (fst (last (t_children s) c0)))
      end
  | XOther _ => fallback
  end.

(** a history of adds *)
Definition tds_adds (h : list (option Q * nat * bool)) : tds :=
  fold_left (fun s '(t, c, a) => tds_add s t c a) h tds_empty.
