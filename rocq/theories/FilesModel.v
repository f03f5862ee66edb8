(** Model of the cache of loaded files: viscid/readers/vfile_bucket.py (20-231), the parts of viscid/readers/vfile.py
    that load, reload and unload a file (100-137) and the functions of viscid/readers/__init__.py (60-136) that use them,
    on top of the model of viscid/bucket.py in BucketModel.v.

    A file is an object with a number; what is modelled of it is its handle, whether it has its contents, and for files
    that refer to others (xdmf) the count of references per handle.  A disk says for each name whether the file can be
    opened and which files it refers to.
    SIMPLIFICATIONS: one name per call, already expanded, of a known type; a file that another refers to does not itself refer to
    others, and it is not part of the tree of data sets (xdmf; not so for series of Fortran files); force_reload is not modelled. *)
From Verif Require Export BucketModel.
Open Scope Z_scope.

Record fobj := Fobj { o_handle : nat; o_full : bool; o_kids : dict nat Z }.
Record world := World { w_bucket : bucket; w_objs : dict nat fobj; w_next : nat }.
Definition empty_world : world := World empty_bucket [] 0.
Definition disk := nat -> option (list nat).
Inductive result := FOk | FKeyError | FAttributeError | FIOError | FRuntimeError | FOther.
Definition res_of (e : outcome) : result := match e with OOk => FOk | OKeyError => FKeyError | _ => FOther end.

(** what is stored for a file that could not be opened *)
Definition none_item : item := Item 0 0.
Definition item_of (id : nat) : item := Item (S id) (S id).
Definition id_of (it : item) : option nat := match ikey it with O => None | S id => Some id end.
Definition n_eq := Nat.eq_dec.
Definition obj (w : world) (id : nat) : option fobj := dget n_eq (w_objs w) id.
Definition set_obj (w : world) (id : nat) (o : fobj) : world := World (w_bucket w) (dset n_eq (w_objs w) id o) (w_next w).
Definition set_full (w : world) (id : nat) (full : bool) : world :=
  match obj w id with Some o => set_obj w id (Fobj (o_handle o) full (o_kids o)) | None => w end.
(** [bucket[name]] *)
Definition get_file (w : world) (name : nat) : option item := lookup (w_bucket w) (HObj name).
(* vfile_bucket.py 142-143 *)
Definition store (w : world) (name : nat) (it : item) (index add_ref : bool) : world * result :=
  let '(b, _, e) := set_item (w_bucket w) [HObj name] it index add_ref in (World b (w_objs w) (w_next w), res_of e).
Definition new_obj (w : world) (name : nat) : world * nat :=
  (World (w_bucket w) (dset n_eq (w_objs w) (w_next w) (Fobj name true [])) (S (w_next w)), w_next w).

(** ** loading *)
(* vfile_bucket.py 110-144 for a file that refers to no others *)
Definition load_leaf (d : disk) (w : world) (name : nat) (index add_ref : bool) : world * option nat * result :=
  match get_file w name with
  | Some it => let (w, e) := store w name it index add_ref in (w, id_of it, e)                          (* 118 *)
  | None =>
      match d name with
      | None => let (w, e) := store w name none_item index add_ref in (w, None, e)                      (* 126-130 *)
      | Some _ => let (w, id) := new_obj w name in
                  let (w, e) := store w name (item_of id) index add_ref in (w, Some id, e)
      end
  end.
(* vfile_bucket.py 197-206, for each file that the file [id] refers to; the caller uses the file that it gets: AttributeError
   if there is none (xdmf.py 450-452) *)
Fixpoint load_kids (d : disk) (w : world) (id : nat) (names : list nat) : world * result :=
  match names with
  | [] => (w, FOk)
  | n :: r =>
      match load_leaf d w n false true with
      | (w, Some k, FOk) =>
          match obj w id, obj w k with
          | Some o, Some ko =>
              let h := o_handle ko in
              let c := match dget n_eq (o_kids o) h with Some c => c | None => 0 end in
              load_kids d (set_obj w id (Fobj (o_handle o) (o_full o) (dset n_eq (o_kids o) h (c + 1)))) id r
          | _, _ => (w, FOther)
          end
      | (w, None, FOk) => (w, FAttributeError)
      | (w, _, e) => (w, e)
      end
  end.
(* vfile_bucket.py 40-148 *)
Definition load_file (d : disk) (w : world) (name : nat) : world * option nat * result :=
  match get_file w name with
  | Some it => let (w, e) := store w name it true false in (w, id_of it, e)
  | None =>
      match d name with
      | None => let (w, e) := store w name none_item true false in (w, None, e)
      | Some ks =>
          let (w, id) := new_obj w name in
          match load_kids d w id ks with
          | (w, FOk) => let (w, e) := store w name (item_of id) true false in (w, Some id, e)
          | (w, e) => (w, None, e)
          end
      end
  end.

(** ** unloading *)
(* vfile.py 128-134; an empty bucket is false *)
Definition unload_self (w : world) (id : nat) (n : Z) : world * result :=
  let w := set_full w id false in
  if Nat.eqb (bucket_len (w_bucket w)) 0 then (w, FOk)
  else let (b, e) := remove_reference (w_bucket w) (AItem (item_of id)) n in (World b (w_objs w) (w_next w), res_of e).
(* vfile_bucket.py 213-221: each file that is referred to gives up as many references as were added *)
Fixpoint unload_kids (w : world) (kids : dict nat Z) : world * result :=
  match kids with
  | [] => (w, FOk)
  | (h, c) :: r =>
      match get_file w h with
      | None => (w, FKeyError)
      | Some it =>
          match id_of it with
          | None => (w, FAttributeError)
          | Some k =>
              match obj w k with
              | Some (Fobj _ _ (_ :: _)) => (w, FRuntimeError)                                            (* 217-220 *)
              | _ => match unload_self w k c with (w, FOk) => unload_kids w r | (w, e) => (w, e) end
              end
          end
      end
  end.
Definition unload (w : world) (id : nat) : world * result :=
  match unload_kids w (match obj w id with Some o => o_kids o | None => [] end) with
  | (w, FOk) => unload_self w id 1
  | (w, e) => (w, e)
  end.
(* readers/__init__.py 96-98 *)
Definition unload_file (w : world) (name : nat) : world * result :=
  match get_file w name with
  | None => (w, FKeyError)
  | Some it => match id_of it with Some id => unload w id | None => (w, FAttributeError) end
  end.
(* vfile_bucket.py 161-168 and readers/__init__.py 134-136 *)
Fixpoint unload_each (w : world) (its : list item) : world * result :=
  match its with
  | [] => (w, FOk)
  | it :: r =>
      match id_of it with
      | None => (w, FAttributeError)
      | Some id => match unload w id with
                   | (w, FOk) | (w, FKeyError) => unload_each w r
                   | (w, e) => (w, e)
                   end
      end
  end.
Definition unload_all_files (w : world) : world * result :=
  match unload_each w (dvals (b_lookup (w_bucket w))) with
  | (w, FOk) => (World (remove_all_items (w_bucket w)) (w_objs w) (w_next w), FOk)
  | (w, e) => (w, e)
  end.

(** ** reloading *)
(* vfile.py 122-126 for a file that refers to no others *)
Definition reload_leaf (d : disk) (w : world) (id : nat) : world * result :=
  match obj w id with
  | None => (w, FOther)
  | Some o => match d (o_handle o) with
              | None => (set_full w id false, FIOError)
              | Some _ => (set_full w id true, FOk)
              end
  end.
(* vfile_bucket.py 208-211 *)
Fixpoint reload_kids (d : disk) (w : world) (kids : dict nat Z) : world * result :=
  match kids with
  | [] => (w, FOk)
  | (h, _) :: r =>
      match get_file w h with
      | None => (w, FKeyError)
      | Some it => match id_of it with
                   | None => (w, FAttributeError)
                   | Some k => match reload_leaf d w k with (w, FOk) => reload_kids d w r | (w, e) => (w, e) end
                   end
      end
  end.
Definition reload (d : disk) (w : world) (id : nat) : world * result :=
  match obj w id with
  | None => (w, FOther)
  | Some o =>
      match reload_kids d w (o_kids o) with
      | (w, FOk) => match d (o_handle o) with
                    | None => (set_full w id false, FIOError)
                    | Some ks => load_kids d (set_full w id true) id ks
                    end
      | (w, e) => (w, e)
      end
  end.
(* readers/__init__.py 100-102 *)
Definition reload_file (d : disk) (w : world) (name : nat) : world * result :=
  match get_file w name with
  | None => (w, FKeyError)
  | Some it => match id_of it with Some id => reload d w id | None => (w, FAttributeError) end
  end.

(** a user's commands *)
Inductive cmd := Load (d : disk) (name : nat) | Unload (name : nat) | Reload (d : disk) (name : nat) | UnloadAll.
Definition exec (w : world) (c : cmd) : world * result :=
  match c with
  | Load d n => let '(w, _, e) := load_file d w n in (w, e)
  | Unload n => unload_file w n
  | Reload d n => reload_file d w n
  | UnloadAll => unload_all_files w
  end.
Fixpoint exec_all (w : world) (cs : list cmd) : world * result :=
  match cs with
  | [] => (w, FOk)
  | c :: r => match exec w c with (w, FOk) => exec_all w r | (w, e) => (w, e) end
  end.
(** the same, where the user goes on after an exception *)
Fixpoint go_on (w : world) (cs : list cmd) : world := match cs with [] => w | c :: r => go_on (fst (exec w c)) r end.
