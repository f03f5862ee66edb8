(** Model of the streamline driver in viscid/cython/streamline.pyx: end flags,
    the tracing loop of one worker, end point classification and the map from
    end flags to a topology.  The integrator, the active AMR patch and the
    cached cell indices are parameters: the loop is modelled for any of them.
    Floating point numbers are modelled as rationals (no rounding, no NaN). *)
From Coq Require Export List ZArith QArith Qabs Lia Bool.
Export ListNotations.
Open Scope Z_scope.

(** streamline.pyx 66-84: values of the END_* flags. *)
Definition END_NONE := 0.
Definition END_IBOUND := 1.
Definition END_IBOUND_NORTH := 3.    (* 2 | END_IBOUND *)
Definition END_IBOUND_SOUTH := 5.    (* 4 | END_IBOUND *)
Definition END_OBOUND := 8.
Definition END_OBOUND_XL := 24.      (* 16 | END_OBOUND *)
Definition END_OBOUND_XH := 40.
Definition END_OBOUND_YL := 72.
Definition END_OBOUND_YH := 136.
Definition END_OBOUND_ZL := 264.
Definition END_OBOUND_ZH := 520.
Definition END_OBOUND_R := 1032.
Definition END_OTHER := 4096.
Definition END_MAXIT := 12288.       (* 8192 | END_OTHER *)
Definition END_MAX_LENGTH := 20480.
Definition END_MAX_T := 36864.
Definition END_ZERO_LENGTH := 69632.

(** streamline.pyx 96-100: values of the TOPOLOGY_MS_* constants. *)
Definition TOPOLOGY_MS_NONE := 0.
Definition TOPOLOGY_MS_CLOSED := 1.
Definition TOPOLOGY_MS_OPEN_NORTH := 2.
Definition TOPOLOGY_MS_OPEN_SOUTH := 4.
Definition TOPOLOGY_MS_SW := 8.

(** streamline.pyx 674-693, end_flags_to_topology_msphere. *)
Definition end_flags_to_topology_msphere (end_flags : Z) : Z :=
  let mask_open_north := Z.lor END_IBOUND_NORTH END_OBOUND in
  let mask_open_south := Z.lor END_IBOUND_SOUTH END_OBOUND in
  if negb (Z.land end_flags END_OTHER =? 0) then end_flags
  else if Z.land end_flags mask_open_north =? mask_open_north then TOPOLOGY_MS_OPEN_NORTH
  else if Z.land end_flags mask_open_south =? mask_open_south then TOPOLOGY_MS_OPEN_SOUTH
  else if (end_flags =? 3) || (end_flags =? 5) || (end_flags =? 7) then TOPOLOGY_MS_CLOSED
  else TOPOLOGY_MS_SW.

(** streamline.pyx 695-696, end_flags_to_topology_generic. *)
Definition end_flags_to_topology_generic (end_flags : Z) : Z := end_flags.

(** Points of space: real_t[3]. *)
Record pt := mkpt { px : Q; py : Q; pz : Q }.

Definition Qltb (a b : Q) : bool := negb (Qle_bool b a).

(** The arguments of _py_streamline (320-329) the loop reads.  [p_junk] stands
    for the value of the C variable abs_dt, which is never assigned when
    max_t <= 0 but is still added to stream_t (589). *)
Record params := mkpar {
  p_ds0 : Q; p_ibound : Q; p_ob0 : pt; p_ob1 : pt; p_obr : Q;
  p_maxit : nat; p_maxlen : Q; p_maxt : Q;
  p_back : bool;          (* stream_dir & DIR_BACKWARD *)
  p_fwd : bool;           (* stream_dir & DIR_FORWARD *)
  p_junk : Q }.

(** streamline.pyx 633-672, classify_endpoint. *)
Definition classify_endpoint (P : params) (p : pt) (len t : Q) : Z :=
  let rsq := (px p * px p + py p * py p + pz p * pz p)%Q in
  if Qltb rsq (p_ibound P * p_ibound P) then
    (if Qle_bool 0 (pz p) then END_IBOUND_NORTH else END_IBOUND_SOUTH)
  else if negb (Qeq_bool (p_obr P) 0) && Qltb (p_obr P * p_obr P) rsq then END_OBOUND_R
  else if Qltb (px p) (px (p_ob0 P)) then END_OBOUND_XL
  else if Qltb (py p) (py (p_ob0 P)) then END_OBOUND_YL
  else if Qltb (pz p) (pz (p_ob0 P)) then END_OBOUND_ZL
  else if Qltb (px (p_ob1 P)) (px p) then END_OBOUND_XH
  else if Qltb (py (p_ob1 P)) (py p) then END_OBOUND_YH
  else if Qltb (pz (p_ob1 P)) (pz p) then END_OBOUND_ZH
  else if Qltb 0 (p_maxlen P) && Qle_bool (p_maxlen P) len then END_MAX_LENGTH
  else if Qltb 0 (p_maxt P) && Qle_bool (p_maxt P) t then END_MAX_T
  else END_NONE.

(** s0 + step_trim * (s - s0), streamline.pyx 584-586. *)
Definition lerp (c : Q) (s0 s : pt) : pt :=
  mkpt (px s0 + c * (px s - px s0)) (py s0 + c * (py s - py s0)) (pz s0 + c * (pz s - pz s0)).

(** What an integrate_func call may do (561-563): return status, move s, change
    ds and dt, and change the hidden state H (cached_idx3, the active patch set
    by activate_patch at 551). *)
Record iret (H : Type) := mkiret { i_ret : Z; i_s : pt; i_ds : Q; i_dt : Q; i_h : H }.
Arguments mkiret {H}. Arguments i_ret {H}. Arguments i_s {H}. Arguments i_ds {H}.
Arguments i_dt {H}. Arguments i_h {H}.

Notation integrator H := (H -> pt -> Q -> Q -> iret H).

(** line_mv[:, it] = s (598-600): None is a write outside the buffer. *)
Definition bwrite (buf : list (option pt)) (it : Z) (p : pt) : option (list (option pt)) :=
  if (0 <=? it) && (it <? Z.of_nat (length buf)) then
    Some (firstn (Z.to_nat it) buf ++ Some p :: skipn (S (Z.to_nat it)) buf)
  else None.

(** Result of tracing in one direction: line_ends[i], the done flag, the
    buffer and the hidden state; Crash is an out of bounds write. *)
Inductive dres (H : Type) :=
| Crash
| Done (it : Z) (done : Z) (buf : list (option pt)) (h : H).
Arguments Crash {H}. Arguments Done {H}.

(** The while loop, streamline.pyx 540-609, then 611-612.  [fuel] only makes the
    recursion structural: [None] means it ran out.  The step_trim and
    step_trim_t variables are kept across iterations as in the code. *)
Fixpoint walk {H} (integ : integrator H) (P : params) (d : Z) (fuel : nat)
         (it : Z) (s : pt) (ds dt len t trim trim_t : Q) (h : H)
         (buf : list (option pt)) {struct fuel} : option (dres H) :=
  match fuel with
  | O => None
  | S fuel =>
      if (0 <=? it) && (it <? 2 * Z.of_nat (p_maxit P) + 1) then               (* 540 *)
        let pre_ds := Qabs ds in                                               (* 542 *)
        let s0 := s in                                                         (* 557-559 *)
        let r := integ h s ds dt in                                            (* 561-563 *)
        let ds' := i_ds r in
        let dt' := if Qltb 0 (p_maxt P) then i_dt r else dt in                 (* dt_ptr, 451-454 *)
        let abs_ds := if Qle_bool pre_ds (Qabs ds') then pre_ds else Qabs ds' in   (* 565-568 *)
        let abs_dt := if Qltb 0 (p_maxt P) then Qabs dt' else p_junk P in      (* 570-571 *)
        let trim1 := if Qltb 0 (p_maxlen P) && Qltb (p_maxlen P) (len + abs_ds)
                     then ((p_maxlen P - len) / abs_ds)%Q else trim in         (* 576-577 *)
        let over_t := Qltb 0 (p_maxt P) && Qltb (p_maxt P) (t + abs_dt) in     (* 578 *)
        let trim_t' := if over_t then ((p_maxt P - t) / abs_dt)%Q else trim_t in   (* 579 *)
        let trim' := if over_t && Qltb trim_t' trim1 then trim_t' else trim1 in    (* 580-581 *)
        let s' := if Qltb trim' 1 then lerp trim' s0 (i_s r) else i_s r in     (* 583-586 *)
        let len' := (len + abs_ds)%Q in                                        (* 588 *)
        let t' := (t + abs_dt)%Q in                                            (* 589 *)
        if negb (i_ret r =? 0) then Some (Done it END_ZERO_LENGTH buf (i_h r)) (* 591-595 *)
        else
          match bwrite buf it s' with                                          (* 597-600 *)
          | None => Some Crash
          | Some buf' =>
              let it' := it + d in                                             (* 601 *)
              let done := classify_endpoint P s' len' t' in                    (* 604-606 *)
              if negb (done =? 0) then Some (Done it' done buf' (i_h r))       (* 608-609 *)
              else walk integ P d fuel it' s' ds' dt' len' t' trim' trim_t' (i_h r) buf'
          end
      else Some (Done it (Z.lor END_OTHER END_MAXIT) buf h)                    (* 540, 611-612 *)
  end.

(** One pass of `for i in range(2)`, streamline.pyx 519-615: skip the direction
    or trace it from the seed.  [trim_t] is the value left in step_trim_t. *)
Definition direction {H} (integ : integrator H) (P : params) (on : bool) (d : Z) (it0 : Z)
           (x0 : pt) (trim_t : Q) (buf : list (option pt)) (h : H) : option (dres H) :=
  if on then
    walk integ P d (S (S (2 * p_maxit P))) it0 x0 (inject_Z d * p_ds0 P)%Q 0 0 0 1 trim_t h buf
  else Some (Done it0 END_NONE buf h).

(** The body of the seed loop, streamline.pyx 505-620: one seed to one line and
    its end flags.  [buf] is line_ndarr as the previous seed left it and [h] the
    hidden state as the previous seed left it.  When only the topology is asked
   for the code skips the buffer writes; the flags are computed the same way. *)
Inductive sres (H : Type) :=
| SCrash
| SLine (line : list (option pt)) (flags : Z) (buf : list (option pt)) (h : H).
Arguments SCrash {H}. Arguments SLine {H}.

Definition streamline {H} (integ : integrator H) (P : params) (trim_t : Q)
           (buf : list (option pt)) (h : H) (x0 : pt) : option (sres H) :=
  let maxit := Z.of_nat (p_maxit P) in
  match bwrite buf maxit x0 with                                               (* 510-514 *)
  | None => Some SCrash
  | Some buf =>
      match direction integ P (p_back P) (-1) (maxit - 1) x0 trim_t buf h with
      | None => None
      | Some Crash => Some SCrash
      | Some (Done e0 f0 buf h) =>
          match direction integ P (p_fwd P) 1 (maxit + 1) x0 trim_t buf h with
          | None => None
          | Some Crash => Some SCrash
          | Some (Done e1 f1 buf h) =>
              Some (SLine (firstn (Z.to_nat (e1 - (e0 + 1))) (skipn (Z.to_nat (e0 + 1)) buf))  (* 620 *)
                          (Z.lor f0 f1) buf h)                                 (* 615 *)
          end
      end
  end.

(** calc_streamlines' use of the module global _global_fld, streamline.pyx
    262-270, as a state machine: the call either finds it set, or sets it, maps
    the workers over the chunks and clears it if nothing was raised. *)
Inductive call_outcome (R X : Type) := Returned (r : R) | Raised (x : X) | BusyError.
Arguments Returned {R X}. Arguments Raised {R X}. Arguments BusyError {R X}.

Definition calc_call {F R X} (g : option F) (fld : F) (work : F -> R + X)
  : call_outcome R X * option F :=
  match g with
  | Some _ => (BusyError, g)                                                   (* 263-265 *)
  | None =>
      match work fld with                                                      (* 266-269 *)
      | inl r => (Returned r, None)                                            (* 270 *)
      | inr x => (Raised x, Some fld)
      end
  end.

Fixpoint calc_calls {F R X} (g : option F) (calls : list (F * (F -> R + X)))
  : list (call_outcome R X) :=
  match calls with
  | [] => []
  | (fld, w) :: rest => let '(o, g') := calc_call g fld w in o :: calc_calls g' rest
  end.

(** calculator/topology.py 19-23 and 30-66: color_map_msphere and
    topology2color with topo_style="msphere", for a list of topologies.  Colours
    are triples of tenths. *)
Definition color := (Z * Z * Z)%type.
Definition color_map_msphere : list (Z * color) :=
  [(TOPOLOGY_MS_CLOSED, (0, 8, 0)); (TOPOLOGY_MS_OPEN_NORTH, (0, 0, 7));
   (TOPOLOGY_MS_OPEN_SOUTH, (7, 0, 0)); (TOPOLOGY_MS_SW, (7, 7, 7))].
Fixpoint assoc (k : Z) (m : list (Z * color)) : option color :=
  match m with [] => None | (k', v) :: m => if k =? k' then Some v else assoc k m end.
Definition topology2color (topology : list Z) (bad_color : option color) : list color :=
  let bad := match bad_color with None => (0, 0, 0) | Some c => c end in       (* 51-52 *)
  map (fun topo => match assoc topo color_map_msphere with Some c => c | None => bad end) topology.  (* 59-63 *)
