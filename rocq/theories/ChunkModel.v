(** Model of the work-splitting helpers of viscid/parallel.py and of the
    chunking / re-assembly done by calc_streamlines (viscid/cython/streamline.pyx).
    Python ints are [Z]; [None] results stand for an exception. *)
From Verif Require Export PySlice.
Open Scope Z_scope.

(** [int(ceil(a / b))].  SIMPLIFICATION: the code divides in floating point, so
    this is exact for a, b < 2^53; b = 0 is ZeroDivisionError (handled by callers). *)
Definition zceil_div (a b : Z) : Z := - ((- a) / b).

(* viscid/parallel.py:113-114, 82-83, 171-172 ([size]'s own value is never read) *)
Definition eff_nchunks (nel nchunks : Z) (size : option Z) : option Z :=
  match size with
  | None => Some nchunks
  | Some _ => if nchunks =? 0 then None else Some (zceil_div nel nchunks)
  end.

(* viscid/parallel.py:121-127: one of the two loops appending (start, start + len) *)
Fixpoint chunk_run (start len : Z) (n : nat) : list (Z * Z) :=
  match n with
  | O => []
  | S n' => (start, start + len) :: chunk_run (start + len) len n'
  end.

(* viscid/parallel.py:90-128.  [ret] has nchunks slots, the first loop fills
   nlong of them and the second one the rest. *)
Definition chunk_slices (nel nchunks : Z) (size : option Z) : option (list (Z * Z)) :=
  match eff_nchunks nel nchunks size with
  | None => None
  | Some nchunks =>
      if nchunks =? 0 then None                                   (* 116: % by zero *)
      else
        let nlong := nel mod nchunks in                           (* 116 *)
        let lenshort := nel / nchunks in                          (* 117 *)
        let lenlong := lenshort + 1 in                            (* 118 *)
        if nchunks <? 0 then Some []                              (* [None] * negative, empty ranges *)
        else Some (chunk_run 0 lenlong (Z.to_nat nlong)           (* 122-124 *)
                     ++ chunk_run (nlong * lenlong) lenshort (Z.to_nat (nchunks - nlong)))  (* 125-127 *)
  end.

(* viscid/parallel.py:87: seq[slice(a, b)] for every chunk *)
Fixpoint take_slices {A} (seq : list A) (cs : list (Z * Z)) : option (list (list A)) :=
  match cs with
  | [] => Some []
  | (a, b) :: cs' =>
      match getslice seq (PS (Some a) (Some b) None), take_slices seq cs' with
      | Some x, Some xs => Some (x :: xs)
      | _, _ => None
      end
  end.

(* viscid/parallel.py:53-88 *)
Definition chunk_list {A} (seq : list A) (nchunks : Z) (size : option Z) : option (list (list A)) :=
  let nel := Z.of_nat (length seq) in
  match eff_nchunks nel nchunks size with
  | None => None
  | Some nchunks =>
      match chunk_slices nel nchunks None with
      | None => None
      | Some cs => take_slices seq cs
      end
  end.

(* viscid/parallel.py:130-149: (i, None, nchunks) *)
Definition chunk_interslices (nchunks : Z) : list pslice :=
  map (fun i => PS (Some (Z.of_nat i)) None (Some nchunks)) (seq 0 (Z.to_nat nchunks)).

(* viscid/parallel.py:151-180.  np.empty of a negative length raises. *)
Definition chunk_sizes (nel nchunks : Z) (size : option Z) : option (list Z) :=
  match eff_nchunks nel nchunks size with
  | None => None
  | Some nchunks =>
      if nchunks <=? 0 then None
      else
        let nlong := nel mod nchunks in                           (* 174 *)
        let lenshort := nel / nchunks in                          (* 175 *)
        let lenlong := lenshort + 1 in                            (* 176 *)
        Some (repeat lenlong (Z.to_nat nlong)                     (* 178 *)
                ++ repeat lenshort (Z.to_nat (nchunks - nlong)))  (* 179 *)
  end.

(* ------------------------------------------------------------------ *)
(** ** calc_streamlines *)

(** itertools.islice(points, start, None, step): the items whose position is
    start, start+step, ... (a specification of the stdlib function). *)
Fixpoint islice_from {A} (k : nat) (pts : list A) (start step : Z) : list A :=
  match pts with
  | [] => []
  | p :: pts' =>
      (if (start <=? Z.of_nat k) && ((Z.of_nat k - start) mod step =? 0) then [p] else [])
        ++ islice_from (S k) pts' start step
  end.
Definition islice {A} (pts : list A) (start step : Z) : list A := islice_from 0 pts start step.

Section Streams.
Context {P B St : Type}.
(** one seed: trace it (streamline.pyx:506-623).  [St] is what survives from one
    seed to the next inside a worker: cached_idx3 and the active patch. *)
Variable trace : St -> P -> B * St.
(** the state a worker starts with (cached_idx3 = 0, the patch that is active) *)
Variable st0 : St.

Fixpoint trace_all (st : St) (pts : list P) : list B :=
  match pts with
  | [] => []
  | p :: pts' => let (b, st') := trace st p in b :: trace_all st' pts'
  end.

(* viscid/cython/streamline.pyx:486-494, 499-505, 620-623: [None] * nr_streams
   (here: slots), filled from the front; more seeds than slots is an IndexError.
   The slice arrives as (start, None, step). *)
Definition worker (nslots : Z) (seeds : list P) (s : pslice) : option (list (option B)) :=
  let pts := islice seeds (odef (p_start s) 0) (step_of s) in
  let n := Z.of_nat (length pts) in
  if nslots <? n then None
  else Some (map Some (trace_all st0 pts) ++ repeat None (Z.to_nat (nslots - n))).
End Streams.

(** numpy: a[i] = v for non-negative i in range *)
Fixpoint set_nth {A} (l : list A) (i : nat) (v : A) : list A :=
  match l, i with
  | [], _ => []
  | _ :: l', O => v :: l'
  | x :: l', S i' => x :: set_nth l' i' v
  end.
Fixpoint set_all {A} (l : list A) (is : list Z) (vs : list A) : list A :=
  match is, vs with
  | i :: is', v :: vs' => set_all (set_nth l (Z.to_nat i) v) is' vs'
  | _, _ => l
  end.
(** numpy: a[s] = vs; a length one right hand side is broadcast, any other
    length mismatch is a ValueError *)
Definition assign_slice {A} (l : list A) (s : pslice) (vs : list A) : option (list A) :=
  match sel (Z.of_nat (length l)) s with
  | None => None
  | Some is =>
      if Nat.eqb (length is) (length vs) then Some (set_all l is vs)
      else match vs with
           | [v] => Some (set_all l is (repeat v (length is)))
           | _ => None
           end
  end.

(* viscid/cython/streamline.pyx:274-277 (lines) and 281-284 (topology) *)
Fixpoint reassemble {A} (out : list A) (slices : list pslice) (rs : list (list A)) : option (list A) :=
  match slices, rs with
  | [], _ => Some out
  | s :: slices', r :: rs' =>
      match assign_slice out s r with
      | None => None
      | Some out' => reassemble out' slices' rs'
      end
  | _ :: _, [] => None
  end.

Fixpoint all_some {A} (l : list (option A)) : option (list A) :=
  match l with
  | [] => Some []
  | None :: _ => None
  | Some x :: l' => match all_some l' with Some r => Some (x :: r) | None => None end
  end.

(* viscid/cython/streamline.pyx:254-284: chunk, map over the chunks, put the
   results back.  [pmap] is parallel.map, which returns one result per chunk in
   chunk order (see ExecutorModel.v); [start_state k] is the state the worker
   that picks up chunk k happens to be in. *)
Definition calc_streams {P B St} (trace : St -> P -> B * St) (start_state : nat -> St)
           (seeds : list P) (nr_procs chunk_factor : Z) : option (list (option B)) :=
  let n := Z.of_nat (length seeds) in
  let nr_chunks := Z.max 1 (Z.min (chunk_factor * nr_procs) n) in               (* 257 *)
  let slices := chunk_interslices nr_chunks in                                  (* 258 *)
  match chunk_sizes n nr_chunks None with                                       (* 260 *)
  | None => None
  | Some sizes =>
      match all_some (map (fun '(k, (sz, s)) => worker trace (start_state k) sz seeds s)
                          (combine (seq 0 (length slices)) (combine sizes slices))) with  (* 267-269 *)
      | None => None
      | Some rs => reassemble (repeat None (length seeds)) slices rs            (* 274-277 *)
      end
  end.
