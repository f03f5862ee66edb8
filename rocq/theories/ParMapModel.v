(** Model of viscid.parallel.map (parallel.py:196-228) and map_async (230-290).

    The process and thread pools of the standard library are not in /repo.
    What parallel.map relies on is modelled as their documented contract
    (multiprocessing.pool.Pool.map_async and MapResult): the argument list is cut
    into batches of some size, a worker evaluates one batch from left to right,
    batches finish in any order, and each finished batch writes its own stretch
    of the result list; the first batch reported as failed decides the
    exception; join() on a pool that was not closed raises.  Pickling and
    processes dying are not modelled.  The branch that uses the bundled thread
    pool (212-215) is in FutModel.v. *)
From Coq Require Export List ZArith Lia Bool Arith. Export ListNotations.
From Verif Require Export FutModel.

Section ParMap.
Context {V E : Type}.
Notation outcome := (outcome V E).

(** [_star_passthrough(args) for args in ...] (parallel.py:219, and mapstar in a
    worker): values, or the first exception *)
Fixpoint eval_list (l : list outcome) : list V + E :=
  match l with
  | [] => inl []
  | Ret v :: rest => match eval_list rest with inl vs => inl (v :: vs) | inr e => inr e end
  | Exc e :: _ => inr e
  end.

(** MapResult: the result list, the exception of the first failed batch *)
Record map_result := MapResult { slots : list (option V); failure : option E }.

Fixpoint write (l : list (option V)) (k : nat) (vs : list V) : list (option V) :=
  match vs with [] => l | v :: vs' => write (upd l k (Some v)) (S k) vs' end.

(** batch [b] of size [cs] is finished: MapResult._set *)
Definition batch_done (cs : nat) (tasks : list outcome) (r : map_result) (b : nat) : map_result :=
  match eval_list (firstn cs (skipn (b * cs) tasks)) with
  | inl vs => MapResult (write (slots r) (b * cs) vs) (failure r)
  | inr e => MapResult (slots r) (match failure r with None => Some e | Some e0 => Some e0 end)
  end.

(** r.get() after all batches have finished, in the order [order] *)
Inductive answer := Values (l : list (option V)) | Raises (e : E) | JoinError.
Definition pool_get (cs : nat) (tasks : list outcome) (order : list nat) : answer :=
  let r := fold_left (batch_done cs tasks) order (MapResult (repeat None (length tasks)) None) in
  match failure r with Some e => Raises e | None => Values (slots r) end.

(** parallel.map without threads (216-226): the serial shortcut, or map_async,
    get, join.  [own_pool]: the caller passed a pool, which map_async then does
    not close (276-277), so join raises. *)
Definition par_map (nr_procs : Z) (force_subprocess own_pool : bool) (cs : nat) (order : list nat) (tasks : list outcome) : answer :=
  if negb own_pool && (nr_procs =? 1)%Z && negb force_subprocess then
    match eval_list tasks with inl vs => Values (map Some vs) | inr e => Raises e end
  else
    match pool_get cs tasks order with
    | Raises e => Raises e
    | r => if own_pool then JoinError else r
    end.
End ParMap.
Arguments answer : clear implicits.
