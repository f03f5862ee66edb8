(** Model of viscid/compat/futures (thread pool and futures):
    _base.py (Future, the waiters, wait, as_completed, Executor.map) and
    thread.py (_WorkItem, _worker, ThreadPoolExecutor).

    The model is a labelled transition system.  One action is one stretch of
    code that other threads cannot cut in two:
    - a [with self._condition] block (waiter notifications are made inside it),
    - [with _AcquireFutures(fs)] in wait/as_completed,
    - one Queue.get or Queue.put, one callback call, one call of the user's
      function returning.
    Simplifications: submit (lock held, thread.py:98-108) is one action;
    tracebacks are dropped; the interpreter exit hook _python_exit and process
    pools are not modelled; time is not modelled, a timed wait may wake up at
    any moment.  Python objects are numbered: futures, worker threads, calls
    to wait, callback registrations, and client threads that owe callback
    calls are positions in lists. *)
From Coq Require Export List ZArith Lia Bool Arith. Export ListNotations.

Section Fut.
(** values returned and exceptions raised by user functions *)
Context {V E : Type}.

(** _base.py:17-24 *)
Inductive fstate := PENDING | RUNNING | CANCELLED | CANCELLED_AND_NOTIFIED | FINISHED.

(** how a call of the user's function ended *)
Inductive outcome := Ret (v : V) | Exc (e : E).

(** Future.__init__, _base.py:287-295; [fres] stands for _result/_exception *)
Record future := Future { st : fstate; fres : option outcome; cbs : list nat; waiters : list nat }.

(** the waiter classes, _base.py:57-137, and the state of the wait() or
    as_completed() call that owns it *)
Inductive wkind := FirstCompleted | FirstException | AllCompleted | AsCompleted.
(** what the caller does next: block on the event, take waiters off futures,
    hand out futures (as_completed), or it has returned *)
Inductive phase := PWait | PRemove (rest : list nat) | PYield (batch : list nat) | PReturned.
Record waiter := Waiter {
  kind : wkind;            (* return_when *)
  wfs : list nat;          (* fs *)
  done0 : list nat;        (* done at the time of the call *)
  npend : Z;               (* num_pending_calls *)
  finished : list nat;     (* finished_futures *)
  event : bool;
  ph : phase;
  asked : list nat;        (* as_completed: the set pending *)
  out : list nat           (* as_completed: futures yielded so far *)
}.

(** worker thread, thread.py:62-82: at work_queue.get; holding an item; inside
    the user's function; about to publish; in _invoke_callbacks; at the
    shutdown test; returned; ended by an exception *)
Inductive wstate := WIdle | WHave (i : nat) | WRun (i : nat) | WDone (i : nat) (o : outcome)
  | WCbs (i : nat) (rest : list nat) | WNone | WExited | WDead.

Record cfg := Cfg {
  futs : list future;
  queue : list (option nat);
  wks : list wstate;
  closed : bool;             (* _shutdown, or the executor was collected *)
  wts : list waiter;
  jobs : list (nat * list nat);  (* client threads that still have callbacks to call *)
  regs : list nat;           (* ghost: callback registrations so far: their futures *)
  started : list nat;        (* ghost: functions entered, in order *)
  ended : list (nat * outcome);  (* ghost: functions left, with outcome *)
  called : list (nat * nat)  (* ghost: callback calls (future, registration) *)
}.

Definition init : cfg := Cfg [] [] [] false [] [] [] [] [] [].

Fixpoint upd {A} (l : list A) (n : nat) (x : A) : list A :=
  match l, n with
  | [], _ => []
  | _ :: l', O => x :: l'
  | a :: l', S n' => a :: upd l' n' x
  end.

(** state in [CANCELLED_AND_NOTIFIED, FINISHED], _base.py:160,199,261 *)
Definition settled (s : fstate) : bool :=
  match s with CANCELLED_AND_NOTIFIED | FINISHED => true | _ => false end.
(** Future.done, _base.py:350-353 *)
Definition is_done (s : fstate) : bool :=
  match s with CANCELLED | CANCELLED_AND_NOTIFIED | FINISHED => true | _ => false end.

(** add_result / add_exception / add_cancelled, _base.py:63-137 *)
Inductive note := NResult | NException | NCancelled.
Definition set_event (w : waiter) : waiter :=
  Waiter (kind w) (wfs w) (done0 w) (npend w) (finished w) true (ph w) (asked w) (out w).
(** _decrement_pending_calls, _base.py:118-122 *)
Definition decrement (w : waiter) : waiter :=
  let n := (npend w - 1)%Z in
  Waiter (kind w) (wfs w) (done0 w) n (finished w) (event w || (n =? 0)%Z) (ph w) (asked w) (out w).
Definition add_note (w : waiter) (i : nat) (n : note) : waiter :=
  let w1 := Waiter (kind w) (wfs w) (done0 w) (npend w) (finished w ++ [i]) (event w) (ph w) (asked w) (out w) in
  match kind w with
  | FirstCompleted | AsCompleted => set_event w1
  | AllCompleted => decrement w1
  | FirstException => match n with NException => set_event w1 | _ => decrement w1 end
  end.

(** [for waiter in self._waiters: waiter.add_...(self)] *)
Definition notify_all (ws : list waiter) (ids : list nat) (i : nat) (n : note) : list waiter :=
  fold_left (fun ws k => match nth_error ws k with Some w => upd ws k (add_note w i n) | None => ws end) ids ws.

Definition set_futs (c : cfg) x := Cfg x (queue c) (wks c) (closed c) (wts c) (jobs c) (regs c) (started c) (ended c) (called c).
Definition set_queue (c : cfg) x := Cfg (futs c) x (wks c) (closed c) (wts c) (jobs c) (regs c) (started c) (ended c) (called c).
Definition set_wks (c : cfg) x := Cfg (futs c) (queue c) x (closed c) (wts c) (jobs c) (regs c) (started c) (ended c) (called c).
Definition set_wts (c : cfg) x := Cfg (futs c) (queue c) (wks c) (closed c) x (jobs c) (regs c) (started c) (ended c) (called c).
Definition set_jobs (c : cfg) x := Cfg (futs c) (queue c) (wks c) (closed c) (wts c) x (regs c) (started c) (ended c) (called c).

Definition with_st (f : future) (s : fstate) : future := Future s (fres f) (cbs f) (waiters f).
Definition with_waiters (f : future) (l : list nat) : future := Future (st f) (fres f) (cbs f) l.

(** does a callback raise something that is not an Exception? then
    _invoke_callbacks (_base.py:297-302) does not catch it *)
Context (cb_fatal : nat -> bool).
(** max_workers, thread.py:92 *)
Context (max_workers : nat).

Inductive act :=
  (* client calls *)
  | Submit | Cancel (i : nat) | AddCallback (i : nat) | Shutdown | Collect
  | Wait (k : wkind) (fs : list nat)
  (* continuing client calls *)
  | ClientCallback (j : nat) | Wake (k : nat) (timed_out : bool) | Remove (k : nat) | Yield (k : nat)
  (* worker threads *)
  | Get (w : nat) | Start (w : nat) | Finish (w : nat) (o : outcome) | Publish (w : nat)
  | WorkerCallback (w : nat) | Check (w : nat).

(** what a client call returns at once (continued calls report through the
    state) *)
Inductive resp := RNone | RFuture (i : nat) | RBool (b : bool) | RRuntimeError.

(** list.remove *)
Fixpoint remove_first (k : nat) (l : list nat) : list nat :=
  match l with [] => [] | a :: l' => if Nat.eqb a k then l' else a :: remove_first k l' end.
Definition memb (k : nat) (l : list nat) : bool := existsb (Nat.eqb k) l.
(** set(l) *)
Definition as_set (l : list nat) : list nat := nodup Nat.eq_dec l.

Definition fut_settled (fs : list future) (i : nat) : bool :=
  match nth_error fs i with Some f => settled (st f) | None => false end.
(** not f.cancelled() and f.exception() is not None, _base.py:267-268, of a
    settled future *)
Definition fut_raised (fs : list future) (i : nat) : bool :=
  match nth_error fs i with
  | Some f => match st f, fres f with FINISHED, Some (Exc _) => true | _, _ => false end
  | None => false
  end.

(** submit, thread.py:98-108, and _adjust_thread_count, 111-125 *)
Definition do_submit (c : cfg) : cfg * resp :=
  if closed c then (c, RRuntimeError)
  else
    let i := length (futs c) in
    let ws := if Nat.ltb (length (wks c)) max_workers then wks c ++ [WIdle] else wks c in
    (Cfg (futs c ++ [Future PENDING None [] []]) (queue c ++ [Some i]) ws (closed c) (wts c) (jobs c) (regs c)
         (started c) (ended c) (called c), RFuture i).

(** cancel, _base.py:321-338 *)
Definition do_cancel (c : cfg) (i : nat) : option (cfg * resp) :=
  match nth_error (futs c) i with
  | None => None
  | Some f =>
      match st f with
      | RUNNING | FINISHED => Some (c, RBool false)
      | CANCELLED | CANCELLED_AND_NOTIFIED => Some (c, RBool true)
      | PENDING =>
          Some (set_jobs (set_futs c (upd (futs c) i (with_st f CANCELLED))) (jobs c ++ [(i, cbs f)]), RBool true)
      end
  end.

(** add_done_callback, _base.py:363-378: kept, or called at once by the
    calling thread *)
Definition do_add_callback (c : cfg) (i : nat) : option (cfg * resp) :=
  match nth_error (futs c) i with
  | None => None
  | Some f =>
      let n := length (regs c) in
      if is_done (st f) then
        Some (Cfg (futs c) (queue c) (wks c) (closed c) (wts c) (jobs c ++ [(i, [n])]) (regs c ++ [i])
                  (started c) (ended c) (called c), RNone)
      else
        Some (Cfg (upd (futs c) i (Future (st f) (fres f) (cbs f ++ [n]) (waiters f)))
                  (queue c) (wks c) (closed c) (wts c) (jobs c) (regs c ++ [i]) (started c) (ended c) (called c), RNone)
  end.

Definition add_called (c : cfg) (i n : nat) : cfg :=
  Cfg (futs c) (queue c) (wks c) (closed c) (wts c) (jobs c) (regs c) (started c) (ended c) (called c ++ [(i, n)]).

(** one turn of _invoke_callbacks (or the call on line 378) in a client
    thread; a fatal exception leaves the rest uncalled *)
Definition do_client_callback (c : cfg) (j : nat) : option (cfg * resp) :=
  match nth_error (jobs c) j with
  | Some (i, n :: rest) =>
      Some (add_called (set_jobs c (upd (jobs c) j (i, if cb_fatal n then [] else rest))) i n, RNone)
  | _ => None
  end.

(** install the waiter on every future of [fs], _base.py:169-170 *)
Definition install (futures : list future) (fs : list nat) (k : nat) : list future :=
  fold_left (fun l i => match nth_error l i with
                        | Some f => upd l i (with_waiters f (waiters f ++ [k]))
                        | None => l
                        end) fs futures.

(** wait up to line 274, and as_completed up to line 201 *)
Definition do_wait (c : cfg) (k : wkind) (fs0 : list nat) : option (cfg * resp) :=
  if forallb (fun i => Nat.ltb i (length (futs c))) fs0 then
    let fs := match k with AsCompleted => as_set fs0 | _ => fs0 end in
    let done := as_set (filter (fut_settled (futs c)) fs) in
    let id := length (wts c) in
    let now := Waiter k fs done 0 [] false PReturned [] done in
    let returns :=
      match k with
      | AsCompleted => false
      | FirstCompleted => negb (Nat.eqb (length done) 0)
      | FirstException => existsb (fut_raised (futs c)) done
      | AllCompleted => false
      end || (match k with AsCompleted => false | _ => Nat.eqb (length done) (length fs) end) in
    if returns then Some (set_wts c (wts c ++ [now]), RNone)
    else
      let pend := Z.of_nat (length (filter (fun i => negb (fut_settled (futs c) i)) fs)) in
      let ask := filter (fun i => negb (fut_settled (futs c) i)) fs in
      let p := match k with AsCompleted => PYield done | _ => PWait end in
      Some (set_wts (set_futs c (install (futs c) fs id))
              (wts c ++ [Waiter k fs done pend [] false p ask []]), RNone)
  else None.

Definition set_ph (w : waiter) (p : phase) : waiter :=
  Waiter (kind w) (wfs w) (done0 w) (npend w) (finished w) (event w) p (asked w) (out w).

(** waiter.event.wait (276, 217) comes back: the event is set, or time is up.
    as_completed then swaps the list and clears the event (219-222); after a
    timeout it goes on to raise (212-215), we let it clean up at once *)
Definition do_wake (c : cfg) (k : nat) (timed_out : bool) : option (cfg * resp) :=
  match nth_error (wts c) k with
  | Some w =>
      match ph w with
      | PWait =>
          if event w || timed_out then
            let w' := match kind w with
                      | AsCompleted =>
                          if timed_out then set_ph w (PRemove (wfs w))
                          else Waiter (kind w) (wfs w) (done0 w) (npend w) [] false (PYield (finished w)) (asked w) (out w)
                      | _ => set_ph w (PRemove (wfs w))
                      end in
            Some (set_wts c (upd (wts c) k w'), RNone)
          else None
      | _ => None
      end
  | None => None
  end.

(** [with f._condition: f._waiters.remove(waiter)], 277-279 and 229-231; then
    the call returns (281-282); [out] of a wait is the set done *)
Definition do_remove (c : cfg) (k : nat) : option (cfg * resp) :=
  match nth_error (wts c) k with
  | Some w =>
      match ph w with
      | PRemove (i :: rest) =>
          match nth_error (futs c) i with
          | Some f => Some (set_wts (set_futs c (upd (futs c) i (with_waiters f (remove_first k (waiters f)))))
                              (upd (wts c) k (set_ph w (PRemove rest))), RNone)
          | None => None
          end
      | PRemove [] =>
          let o := match kind w with AsCompleted => out w | _ => as_set (done0 w ++ finished w) end in
          Some (set_wts c (upd (wts c) k
                  (Waiter (kind w) (wfs w) (done0 w) (npend w) (finished w) (event w) PReturned (asked w) o)), RNone)
      | _ => None
      end
  | None => None
  end.

(** as_completed hands out one future (204-205, 224-226); at the end of a
    batch it tests [pending] (207) *)
Definition do_yield (c : cfg) (k : nat) : option (cfg * resp) :=
  match nth_error (wts c) k with
  | Some w =>
      match ph w with
      | PYield (i :: rest) =>
          Some (set_wts c (upd (wts c) k
             (Waiter (kind w) (wfs w) (done0 w) (npend w) (finished w) (event w) (PYield rest)
                     (remove_first i (asked w)) (out w ++ [i]))), RNone)
      | PYield [] =>
          Some (set_wts c (upd (wts c) k
             (set_ph w (match asked w with [] => PRemove (wfs w) | _ => PWait end))), RNone)
      | _ => None
      end
  | None => None
  end.

(** work_queue.get, thread.py:65 *)
Definition do_get (c : cfg) (w : nat) : option (cfg * resp) :=
  match nth_error (wks c) w, queue c with
  | Some WIdle, q :: rest =>
      Some (set_wks (set_queue c rest) (upd (wks c) w (match q with Some i => WHave i | None => WNone end)), RNone)
  | _, _ => None
  end.

(** set_running_or_notify_cancel (_base.py:487-502) from _WorkItem.run *)
Definition do_start (c : cfg) (w : nat) : option (cfg * resp) :=
  match nth_error (wks c) w with
  | Some (WHave i) =>
      match nth_error (futs c) i with
      | Some f =>
          match st f with
          | CANCELLED =>
              Some (set_wks (set_wts (set_futs c (upd (futs c) i (with_st f CANCELLED_AND_NOTIFIED)))
                        (notify_all (wts c) (waiters f) i NCancelled)) (upd (wks c) w WIdle), RNone)
          | PENDING =>
              Some (Cfg (upd (futs c) i (with_st f RUNNING)) (queue c) (upd (wks c) w (WRun i)) (closed c)
                        (wts c) (jobs c) (regs c) (started c ++ [i]) (ended c) (called c), RNone)
          | _ => Some (set_wks c (upd (wks c) w WDead), RNone)
          end
      | None => None
      end
  | _ => None
  end.

(** the user's function returns or raises, thread.py:54-60 *)
Definition do_finish (c : cfg) (w : nat) (o : outcome) : option (cfg * resp) :=
  match nth_error (wks c) w with
  | Some (WRun i) =>
      Some (Cfg (futs c) (queue c) (upd (wks c) w (WDone i o)) (closed c) (wts c) (jobs c) (regs c)
                (started c) (ended c ++ [(i, o)]) (called c), RNone)
  | _ => None
  end.

(** set_result / set_exception_info, _base.py:504-530 *)
Definition do_publish (c : cfg) (w : nat) : option (cfg * resp) :=
  match nth_error (wks c) w with
  | Some (WDone i o) =>
      match nth_error (futs c) i with
      | Some f =>
          Some (set_wks (set_wts (set_futs c (upd (futs c) i (Future FINISHED (Some o) (cbs f) (waiters f))))
                   (notify_all (wts c) (waiters f) i (match o with Ret _ => NResult | Exc _ => NException end)))
                   (upd (wks c) w (WCbs i (cbs f))), RNone)
      | None => None
      end
  | _ => None
  end.

(** one turn of _invoke_callbacks in a worker (297-302); anything but an
    Exception ends the worker (thread.py:81-82) *)
Definition do_worker_callback (c : cfg) (w : nat) : option (cfg * resp) :=
  match nth_error (wks c) w with
  | Some (WCbs i (n :: rest)) =>
      Some (add_called (set_wks c (upd (wks c) w (if cb_fatal n then WDead else WCbs i rest))) i n, RNone)
  | Some (WCbs i []) => Some (set_wks c (upd (wks c) w WIdle), RNone)
  | _ => None
  end.

(** thread.py:71-80 *)
Definition do_check (c : cfg) (w : nat) : option (cfg * resp) :=
  match nth_error (wks c) w with
  | Some WNone =>
      if closed c then Some (set_wks (set_queue c (queue c ++ [None])) (upd (wks c) w WExited), RNone)
      else Some (set_wks c (upd (wks c) w WIdle), RNone)
  | _ => None
  end.

(** shutdown, thread.py:127-130 (one None), and collection of the executor,
    112-115 (one None per thread); no submit can follow either *)
Definition do_close (c : cfg) (n : nat) : cfg :=
  Cfg (futs c) (queue c ++ repeat None n) (wks c) true (wts c) (jobs c) (regs c) (started c) (ended c) (called c).

Definition step (c : cfg) (a : act) : option (cfg * resp) :=
  match a with
  | Submit => Some (do_submit c)
  | Cancel i => do_cancel c i
  | AddCallback i => do_add_callback c i
  | Shutdown => Some (do_close c 1, RNone)
  | Collect => Some (do_close c (length (wks c)), RNone)
  | Wait k fs => do_wait c k fs
  | ClientCallback j => do_client_callback c j
  | Wake k t => do_wake c k t
  | Remove k => do_remove c k
  | Yield k => do_yield c k
  | Get w => do_get c w
  | Start w => do_start c w
  | Finish w o => do_finish c w o
  | Publish w => do_publish c w
  | WorkerCallback w => do_worker_callback c w
  | Check w => do_check c w
  end.

(** every interleaving *)
Inductive reachable : cfg -> Prop :=
  | reach_init : reachable init
  | reach_step c a c' r : reachable c -> step c a = Some (c', r) -> reachable c'.

(** Future.result(), _base.py:396-409: None while it blocks.  [truthy] is the
    truth value of an exception object (line 356 tests [if self._exception]). *)
Inductive result := RReturn (v : option V) | RRaise (e : E) | RCancelledError.
Context (truthy : E -> bool).
Definition get_result (c : cfg) (i : nat) : option result :=
  match nth_error (futs c) i with
  | None => None
  | Some f =>
      match st f with
      | CANCELLED | CANCELLED_AND_NOTIFIED => Some RCancelledError
      | FINISHED =>
          match fres f with
          | Some (Ret v) => Some (RReturn (Some v))
          | Some (Exc e) => Some (if truthy e then RRaise e else RReturn None)
          | None => Some (RReturn None)
          end
      | _ => None
      end
  end.

(** the consumer of Executor.map (_base.py:579-588): results in the order of
    the futures, up to the first that raises; None while some result blocks *)
Inductive map_end := MapAll | MapRaise (e : E) | MapCancelled.
Fixpoint map_results (c : cfg) (ids : list nat) : option (list (option V) * map_end) :=
  match ids with
  | [] => Some ([], MapAll)
  | i :: rest =>
      match get_result c i with
      | None => None
      | Some (RRaise e) => Some ([], MapRaise e)
      | Some RCancelledError => Some ([], MapCancelled)
      | Some (RReturn v) =>
          match map_results c rest with
          | None => None
          | Some (vs, e) => Some (v :: vs, e)
          end
      end
  end.
End Fut.
Arguments outcome : clear implicits.
Arguments future : clear implicits.
Arguments wstate : clear implicits.
Arguments cfg : clear implicits.
Arguments act : clear implicits.
Arguments result : clear implicits.
