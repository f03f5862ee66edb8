(** Model of viscid/bucket.py. *)
From Verif Require Export Dict.
Open Scope Z_scope.

(** Handles: Python ints (auto handles are ints), other hashable objects, and
    unhashable objects.  Equality of handles is Python ==. *)
Inductive handle := HInt (z : Z) | HObj (n : nat) | HBad (n : nat).
Definition handle_eq (a b : handle) : {a = b} + {a <> b}.
Proof. decide equality; solve [apply Z.eq_dec | apply Nat.eq_dec]. Defined.

(** Items: [ikey] is what _make_hashable returns (viscid/bucket.py:53-59: the
    item itself, compared with ==, or a string made from its id); [iid] is the
    object's identity, which the operator "is" compares.
    SIMPLIFICATION: no item compares equal to a handle. *)
Record item := Item { ikey : nat; iid : nat }.
Definition same_obj (a b : item) : bool := Nat.eqb (ikey a) (ikey b) && Nat.eqb (iid a) (iid b).

Record bucket := Bucket {
  b_refs : dict nat Z;               (* _ref_count *)
  b_lookup : dict nat item;          (* _hash_lookup *)
  b_handles : dict nat (list handle); (* _handles *)
  b_items : dict handle item;        (* _items *)
  b_counter : Z                      (* _int_counter *)
}.

Inductive outcome := OOk | OKeyError | OValueError | OTypeError.

Definition k_eq := Nat.eq_dec.

(* viscid/bucket.py:35-51 *)
Definition empty_bucket : bucket := Bucket [] [] [] [] 0.

(** list.remove: first occurrence; None is ValueError *)
Fixpoint list_remove (l : list handle) (h : handle) : option (list handle) :=
  match l with
  | [] => None
  | x :: l' => if handle_eq x h then Some l'
               else match list_remove l' h with Some r => Some (x :: r) | None => None end
  end.

Definition hashable (h : handle) : bool := match h with HBad _ => false | _ => true end.

(* viscid/bucket.py:137-138: del self._items[h] for every handle *)
Fixpoint del_items (items : dict handle item) (hs : list handle) : dict handle item * outcome :=
  match hs with
  | [] => (items, OOk)
  | h :: hs' => match dget handle_eq items h with
                | None => (items, OKeyError)
                | Some _ => del_items (ddel handle_eq items h) hs'
                end
  end.

(* viscid/bucket.py:130-147 (_remove_item, remove_item) *)
Definition remove_item (b : bucket) (k : nat) : bucket * outcome :=
  match dget k_eq (b_handles b) k with
  | None => (b, OKeyError)                                             (* 136 *)
  | Some hs =>
      match del_items (b_items b) hs with                              (* 137-138 *)
      | (items', OOk) =>
          match dget k_eq (b_lookup b) k, dget k_eq (b_refs b) k with
          | Some _, Some _ =>
              (Bucket (ddel k_eq (b_refs b) k) (ddel k_eq (b_lookup b) k)
                      (ddel k_eq (b_handles b) k) items' (b_counter b), OOk)   (* 139-141 *)
          | _, _ => (Bucket (b_refs b) (b_lookup b) (b_handles b) items' (b_counter b), OKeyError)
          end
      | (items', e) => (Bucket (b_refs b) (b_lookup b) (b_handles b) items' (b_counter b), e)
      end
  end.

(* viscid/bucket.py:89-112: the loop over the handles, returns handles_added *)
Fixpoint set_loop (b : bucket) (hs : list handle) (it : item) (added : list handle)
  : bucket * list handle * outcome :=
  match hs with
  | [] => (b, added, OOk)
  | h :: hs' =>
      if negb (hashable h) then set_loop b hs' it added                (* 91-96 *)
      else
        let put (b : bucket) :=                                        (* 111-112 *)
          set_loop (Bucket (b_refs b) (b_lookup b) (b_handles b)
                           (dset handle_eq (b_items b) h it) (b_counter b)) hs' it (added ++ [h]) in
        match dget handle_eq (b_items b) h with
        | Some old =>
            if same_obj it old then set_loop b hs' it added            (* 98-99 *)
            else
              match dget k_eq (b_handles b) (ikey old) with            (* 106-108 *)
              | None => (b, added, OKeyError)
              | Some ohs =>
                  match list_remove ohs h with
                  | None => (b, added, OValueError)
                  | Some ohs' =>
                      let b1 := Bucket (b_refs b) (b_lookup b) (dset k_eq (b_handles b) (ikey old) ohs')
                                       (b_items b) (b_counter b) in
                      match ohs' with
                      | [] => match remove_item b1 (ikey old) with     (* 109-110 *)
                              | (b2, OOk) => put b2
                              | (b2, e) => (b2, added, e)
                              end
                      | _ => put b1
                      end
                  end
              end
        | None => put b
        end
  end.

(* viscid/bucket.py:71-128.  The handles argument is a list object that the
   method extends in place, so the caller's list afterwards is returned too. *)
Definition set_item (b : bucket) (hs : list handle) (it : item) (index_handle add_ref : bool)
  : bucket * list handle * outcome :=
  let known := dmem k_eq (b_lookup b) (ikey it) in                     (* 83 *)
  let '(hs, b) := if negb known && index_handle
                  then (hs ++ [HInt (b_counter b)],                    (* 85 *)
                        Bucket (b_refs b) (b_lookup b) (b_handles b) (b_items b) (b_counter b + 1))  (* 86 *)
                  else (hs, b) in
  match set_loop b hs it [] with
  | (b, added, OOk) =>
      match dget k_eq (b_handles b) (ikey it) with
      | Some old_hs =>                                                 (* 115-117 *)
          let b := Bucket (b_refs b) (b_lookup b) (dset k_eq (b_handles b) (ikey it) (old_hs ++ added))
                          (b_items b) (b_counter b) in
          if add_ref then
            match dget k_eq (b_refs b) (ikey it) with
            | Some r => (Bucket (dset k_eq (b_refs b) (ikey it) (r + 1)) (b_lookup b) (b_handles b)
                                (b_items b) (b_counter b), hs, OOk)
            | None =>     (* the KeyError handler of line 118 also catches this one *)
                match added with
                | [] => (b, hs, OOk)
                | _ => (Bucket (dset k_eq (b_refs b) (ikey it) 1) (dset k_eq (b_lookup b) (ikey it) it)
                               (dset k_eq (b_handles b) (ikey it) added) (b_items b) (b_counter b), hs, OOk)
                end
            end
          else (b, hs, OOk)
      | None =>                                                        (* 118-126 *)
          match added with
          | [] => (b, hs, OOk)
          | _ => (Bucket (dset k_eq (b_refs b) (ikey it) 1) (dset k_eq (b_lookup b) (ikey it) it)
                         (dset k_eq (b_handles b) (ikey it) added) (b_items b) (b_counter b), hs, OOk)
          end
      end
  | (b, _, e) => (b, hs, e)
  end.

(* viscid/bucket.py:195-196: self._items[handle] *)
Definition lookup (b : bucket) (h : handle) : option item :=
  if hashable h then dget handle_eq (b_items b) h else None.

(* viscid/bucket.py:149-151 *)
Definition remove_item_by_handle (b : bucket) (h : handle) : bucket * outcome :=
  if negb (hashable h) then (b, OTypeError)
  else match dget handle_eq (b_items b) h with
       | None => (b, OKeyError)
       | Some it => remove_item b (ikey it)
       end.

(** the argument of remove_reference and del: an item or a handle *)
Inductive arg := AItem (it : item) | AHandle (h : handle).

(* viscid/bucket.py:153-169 *)
Definition remove_reference (b : bucket) (a : arg) (n : Z) : bucket * outcome :=
  let finish (k : nat) (r : Z) :=
    let b1 := Bucket (dset k_eq (b_refs b) k r) (b_lookup b) (b_handles b) (b_items b) (b_counter b) in
    if r <=? 0 then remove_item b1 k else (b1, OOk) in                 (* 168-169 *)
  match a with
  | AItem it =>
      match dget k_eq (b_refs b) (ikey it) with
      | Some r => finish (ikey it) (r - n)                             (* 156 *)
      | None => (b, OKeyError)                                         (* 158: self[item] *)
      end
  | AHandle h =>
      if negb (hashable h) then (b, OTypeError)                        (* 158 *)
      else match dget handle_eq (b_items b) h with
           | None => (b, OKeyError)
           | Some it =>
               match dget k_eq (b_refs b) (ikey it) with
               | None => (b, OKeyError)
               | Some r => finish (ikey it) (if n =? 0 then 0 else r - n)  (* 160-163 *)
               end
           end
  end.

(* viscid/bucket.py:171-173 *)
Definition remove_all_items (b : bucket) : bucket := Bucket [] [] [] [] (b_counter b).

(* viscid/bucket.py:205-210 *)
Definition del_item (b : bucket) (a : arg) : bucket * outcome :=
  match a with
  | AHandle h => match remove_item_by_handle b h with
                 | (b', OOk) => (b', OOk)
                 | (b', OValueError) => (b', OValueError)
                 | (b', _) => (b', OKeyError)        (* remove_item(handle) finds no such item *)
                 end
  | AItem it => remove_item b (ikey it)
  end.

(* viscid/bucket.py:61-63 *)
Definition bucket_items (b : bucket) : list (option (list handle) * item) :=
  map (fun '(k, it) => (dget k_eq (b_handles b) k, it)) (b_lookup b).
(* viscid/bucket.py:178-180: handles[0] of every item (None is IndexError) *)
Definition primary_handles (b : bucket) : list (option handle) := map (fun hs => hd_error hs) (dvals (b_handles b)).
(* viscid/bucket.py:228-229 *)
Definition bucket_len (b : bucket) : nat := length (b_lookup b).
(* viscid/bucket.py:215-226 *)
Definition contains_item (b : bucket) (it : item) : bool := dmem k_eq (b_handles b) (ikey it).
Definition contains_handle (b : bucket) (h : handle) : bool :=
  match lookup b h with Some _ => true | None => false end.

Inductive op :=
| SetItem (hs : list handle) (it : item) (index_handle add_ref : bool)
| RemoveItem (it : item)
| RemoveByHandle (h : handle)
| RemoveRef (a : arg) (n : Z)
| RemoveAll
| DelItem (a : arg).

Definition step (b : bucket) (o : op) : bucket * outcome :=
  match o with
  | SetItem hs it ih ar => let '(b', _, e) := set_item b hs it ih ar in (b', e)
  | RemoveItem it => remove_item b (ikey it)
  | RemoveByHandle h => remove_item_by_handle b h
  | RemoveRef a n => remove_reference b a n
  | RemoveAll => (remove_all_items b, OOk)
  | DelItem a => del_item b a
  end.

Definition run (b : bucket) (os : list op) : bucket := fold_left (fun b o => fst (step b o)) os b.
