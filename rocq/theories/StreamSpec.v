(** What a traced line should be, stated without the buffer, the loop counter or
    the flag arithmetic of the code. *)
From Verif Require Export StreamModel.
From Coq Require Export Qminmax.
Open Scope Q_scope.

(** Squared distance from the origin. *)
Definition rsq (p : pt) : Q := px p * px p + py p * py p + pz p * pz p.

(** Componentwise equality of points (rationals are compared with ==). *)
Definition pt_eq (p q : pt) : Prop := px p == px q /\ py p == py q /\ pz p == pz q.

(** The point a fraction f of the way from a to b. *)
Definition along (f : Q) (a b p : pt) : Prop :=
  px p == px a + f * (px b - px a) /\ py p == py a + f * (py b - py a) /\ pz p == pz a + f * (pz b - pz a).

Definition inner (P : params) (p : pt) : Prop := rsq p < p_ibound P * p_ibound P.
Definition beyond_r (P : params) (p : pt) : Prop := ~ p_obr P == 0 /\ p_obr P * p_obr P < rsq p.
Definition in_box (P : params) (p : pt) : Prop :=
  (px (p_ob0 P) <= px p <= px (p_ob1 P)) /\ (py (p_ob0 P) <= py p <= py (p_ob1 P)) /\
  (pz (p_ob0 P) <= pz p <= pz (p_ob1 P)).
(** Inside the region where tracing goes on. *)
Definition inside (P : params) (p : pt) : Prop := ~ inner P p /\ ~ beyond_r P p /\ in_box P p.
(** A limit on length (time) is only in force if it is positive. *)
Definition length_spent (P : params) (len : Q) : Prop := 0 < p_maxlen P /\ p_maxlen P <= len.
Definition time_spent (P : params) (t : Q) : Prop := 0 < p_maxt P /\ p_maxt P <= t.

(** Why a line ends at a point, as documented beside the END flags. *)
Inductive reason (P : params) (p : pt) (len t : Q) : Z -> Prop :=
| R_north : inner P p -> 0 <= pz p -> reason P p len t END_IBOUND_NORTH
| R_south : inner P p -> pz p < 0 -> reason P p len t END_IBOUND_SOUTH
| R_radius : ~ inner P p -> beyond_r P p -> reason P p len t END_OBOUND_R
| R_xl : ~ inner P p -> px p < px (p_ob0 P) -> reason P p len t END_OBOUND_XL
| R_yl : ~ inner P p -> py p < py (p_ob0 P) -> reason P p len t END_OBOUND_YL
| R_zl : ~ inner P p -> pz p < pz (p_ob0 P) -> reason P p len t END_OBOUND_ZL
| R_xh : ~ inner P p -> px (p_ob1 P) < px p -> reason P p len t END_OBOUND_XH
| R_yh : ~ inner P p -> py (p_ob1 P) < py p -> reason P p len t END_OBOUND_YH
| R_zh : ~ inner P p -> pz (p_ob1 P) < pz p -> reason P p len t END_OBOUND_ZH
| R_len : inside P p -> length_spent P len -> reason P p len t END_MAX_LENGTH
| R_time : inside P p -> time_spent P t -> reason P p len t END_MAX_T.

(** Where a tracer stands: point, step, elapsed dt, accumulated length and time,
    and the hidden state of the field lookup. *)
Record tracer (H : Type) := mkt { t_p : pt; t_ds : Q; t_dt : Q; t_len : Q; t_time : Q; t_h : H }.
Arguments mkt {H}. Arguments t_p {H}. Arguments t_ds {H}. Arguments t_dt {H}.
Arguments t_len {H}. Arguments t_time {H}. Arguments t_h {H}.

(** The part of a step that is kept: all of it, unless that would pass a limit,
    and then exactly up to the limit reached first. *)
Definition kept (P : params) (len a t b f : Q) : Prop :=
  0 <= f /\ f <= 1 /\
  (0 < p_maxlen P -> len + f * a <= p_maxlen P) /\
  (0 < p_maxt P -> t + f * b <= p_maxt P) /\
  (f < 1 -> (0 < p_maxlen P /\ len + f * a == p_maxlen P) \/ (0 < p_maxt P /\ t + f * b == p_maxt P)).

(** One integrator step from [o] to [o'], of nominal length [a], keeping the
    fraction [f] of it. *)
Definition advance {H} (integ : integrator H) (P : params) (o o' : tracer H) (a f : Q) : Prop :=
  let r := integ (t_h o) (t_p o) (t_ds o) (t_dt o) in
  i_ret r = 0%Z /\ t_h o' = i_h r /\ t_ds o' = i_ds r /\
  a == Qmin (Qabs (t_ds o)) (Qabs (i_ds r)) /\ t_len o' == t_len o + a /\
  exists b, (0 < p_maxt P -> t_dt o' = i_dt r /\ b == Qabs (i_dt r)) /\
            t_time o' == t_time o + b /\
            kept P (t_len o) a (t_time o) b f /\ along f (t_p o) (i_s r) (t_p o').

(** [traced n o steps why h]: from [o], with room for n more points, the line
    goes through the points of [steps], each one integrator step from the one
    before (the nominal length and kept fraction are recorded with it), and ends
    because of [why] with the hidden state [h]. *)
Inductive traced {H} (integ : integrator H) (P : params)
  : nat -> tracer H -> list (pt * Q * Q) -> Z -> H -> Prop :=
| T_full o : traced integ P 0 o [] END_MAXIT (t_h o)
| T_stuck n o :
    i_ret (integ (t_h o) (t_p o) (t_ds o) (t_dt o)) <> 0%Z ->
    traced integ P (S n) o [] END_ZERO_LENGTH (i_h (integ (t_h o) (t_p o) (t_ds o) (t_dt o)))
| T_end n o o' a f why :
    advance integ P o o' a f -> reason P (t_p o') (t_len o') (t_time o') why ->
    traced integ P (S n) o [(t_p o', a, f)] why (t_h o')
| T_go n o o' a f steps why h :
    advance integ P o o' a f -> inside P (t_p o') ->
    ~ length_spent P (t_len o') -> ~ time_spent P (t_time o') ->
    traced integ P n o' steps why h ->
    traced integ P (S n) o ((t_p o', a, f) :: steps) why h.

(** The points of a list of steps. *)
Definition points (steps : list (pt * Q * Q)) : list pt := map (fun s => fst (fst s)) steps.
(** The length actually kept. *)
Fixpoint kept_length (steps : list (pt * Q * Q)) : Q :=
  match steps with [] => 0 | (_, a, f) :: rest => f * a + kept_length rest end.

(** Start of a trace in direction d. *)
Definition start {H} (P : params) (d : Z) (x0 : pt) (h : H) : tracer H :=
  mkt x0 (inject_Z d * p_ds0 P) 0 0 0 h.

(** Where an end is, for the topology. *)
Inductive end_kind := North | South | Outer | Unfinished.
Definition kind_of (why : Z) (k : end_kind) : Prop :=
  match k with
  | North => why = END_IBOUND_NORTH
  | South => why = END_IBOUND_SOUTH
  | Outer => In why [END_OBOUND_XL; END_OBOUND_XH; END_OBOUND_YL; END_OBOUND_YH; END_OBOUND_ZL;
                     END_OBOUND_ZH; END_OBOUND_R]
  | Unfinished => In why [END_MAXIT; END_MAX_LENGTH; END_MAX_T; END_ZERO_LENGTH]
  end.
(** The topology a line with these two ends should get; None: no topology. *)
Definition topology_of (a b : end_kind) : option Z :=
  match a, b with
  | Unfinished, _ | _, Unfinished => None
  | Outer, Outer => Some TOPOLOGY_MS_SW
  | North, Outer | Outer, North => Some TOPOLOGY_MS_OPEN_NORTH
  | South, Outer | Outer, South => Some TOPOLOGY_MS_OPEN_SOUTH
  | (North | South), (North | South) => Some TOPOLOGY_MS_CLOSED
  end.
