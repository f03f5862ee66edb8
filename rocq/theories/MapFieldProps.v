(** C61: conversion of fields between spherical coordinates, latitude and longitude, and polar plots. *)
From Verif Require Import MapFieldModel MapPtsProps.
From Coq Require Import Lra Lia ZifyBool ZifyNat.
Open Scope R_scope.

(** * specification *)
(* the coordinate of the node i of an axis, and of the datum i *)
Definition node_at (c : cvals) (i : nat) : R :=
  match c with Lin xl xh n => xl + INR i * ((xh - xl) / INR (n - 1)) | Arr l => nth i l 0 end.
Definition pos_at (cell : bool) (c : cvals) (i : nat) : R :=
  if cell then (node_at c i + node_at c (S i)) / 2 else node_at c i.
Definition count (c : cvals) : nat := match c with Lin _ _ n => n | Arr l => length l end.
Definition size (cell : bool) (c : cvals) : nat := if cell then (count c - 1)%nat else count c.
Definition comps (f : fld) : nat := let '(a, b, c) := shape f in match lay f with Flat => a | _ => c end.
(* the shape of the data fits the axes; a uniform axis has at least two nodes *)
Definition axis_ok (c : cvals) : Prop := match c with Lin _ _ n => (2 <= n)%nat | Arr _ => True end.
Definition wf (f : fld) : Prop :=
  let s0 := size (cell f) (cv (ax0 f)) in let s1 := size (cell f) (cv (ax1 f)) in
  shape f = match lay f with Flat => (comps f, s0, s1) | _ => (s0, s1, comps f) end /\ axis_ok (cv (ax0 f)) /\ axis_ok (cv (ax1 f)).
Definition entry (f : fld) (i j k : nat) : R := match lay f with Flat => dat f k i j | _ => dat f i j k end.
(* the field has the value v of component k at the place where its first coordinate is z false and its second z true *)
Definition val (f : fld) (z : bool -> R) (k : nat) (v : R) : Prop :=
  exists i j, (i < size (cell f) (cv (ax0 f)))%nat /\ (j < size (cell f) (cv (ax1 f)))%nat /\ (k < comps f)%nat /\
    pos_at (cell f) (cv (ax0 f)) i = z false /\ pos_at (cell f) (cv (ax1 f)) j = z true /\ entry f i j k = v.
(* the same with places given by the names of the axes *)
Definition value (f : fld) (p : axis -> R) (k : nat) (v : R) : Prop :=
  val f (fun d : bool => p (nm (if d then ax1 f else ax0 f))) k v.
(* units *)
Definition compatible (from to : cunit) : Prop := to = NoUnit \/ to = from \/ (from = UDeg /\ to = URad) \/ (from = URad /\ to = UDeg).
Definition factor (from to : cunit) : R := match from, to with UDeg, URad => PI / 180 | URad, UDeg => 180 / PI | _, _ => 1 end.
Definition final (from to : cunit) : cunit := match to with NoUnit => from | _ => to end.
(* a quarter turn in a unit; without unit angles are degrees *)
Definition quarter (u : cunit) : R := match u with URad => PI / 2 | _ => 90 end.

(** * helpers *)
Lemma unit_ok a b : compatible a b -> exists u, unit_xform a b = Ok u /\ forall x, (match u with None => fun x => x | Some g => g end) x = factor a b * x.
Proof.
  intros [-> | [-> | [(-> & ->)|(-> & ->)]]].
  - exists None. split; [destruct a; reflexivity|]. intros x. destruct a; cbn [factor]; ring.
  - exists None. split; [|intros x; destruct a; cbn [factor]; ring]. destruct a as [| | |n]; try reflexivity. cbn [unit_xform eq_unit]. rewrite Nat.eqb_refl. reflexivity.
  - eexists. split; [reflexivity|]. intros x. reflexivity.
  - eexists. split; [reflexivity|]. intros x. reflexivity.
Qed.
Definition mapped (d : bool) (g : R -> R) (f f' : fld) : Prop :=
  forall z' k v, val f' z' k v <-> exists z, val f z k v /\ z' d = g (z d) /\ z' (negb d) = z (negb d).
Lemma eq_axis_true a b : eq_axis a b = true <-> a = b.
Proof. destruct a, b; cbn; split; congruence. Qed.
Lemma val_ext f z z' k v : z false = z' false -> z true = z' true -> val f z k v -> val f z' k v.
Proof. intros A B (i & j & Hi & Hj & Hk & X & Y & E). exists i, j. rewrite <- A, <- B. auto 10. Qed.
Lemma mapped_id d f : mapped d (fun x => x) f f.
Proof. intros z k v. split; [intros H; exists z; auto|]. intros (z0 & H & A & B). apply (val_ext f z0); [destruct d; cbn [negb] in *; congruence|destruct d; cbn [negb] in *; congruence|exact H]. Qed.
Lemma mapped_ext d g h f f' : (forall x, g x = h x) -> mapped d g f f' -> mapped d h f f'.
Proof. intros E M z k v. rewrite (M z k v). split; intros (z0 & H & A & B); exists z0; (split; [exact H|]); [rewrite <- E|rewrite E]; auto. Qed.
Lemma scale_node s c c' i : c' = match c with Lin a b n => Lin (s * a) (s * b) n | Arr l => Arr (map (fun x => s * x) l) end -> node_at c' i = s * node_at c i.
Proof.
  intros ->. destruct c as [a b n|l]; cbn [node_at]; [unfold Rdiv; ring|]. destruct (Nat.lt_ge_cases i (length l)) as [L|L].
  - rewrite (nth_indep _ 0 (s * 0)) by (rewrite map_length; exact L). apply (map_nth (fun x => s * x)).
  - rewrite !nth_overflow by (rewrite ?map_length; exact L). ring.
Qed.
Lemma INR_sub1 n : (1 <= n)%nat -> INR (n - 1) = INR n - 1.
Proof. intros H. rewrite minus_INR by exact H. reflexivity. Qed.
(* the reversed axis q - s * x *)
Definition reversed (q s : R) (c : cvals) : cvals :=
  match c with Lin a b n => Lin (q - s * b) (q - s * a) n | Arr l => Arr (rev (map (fun x => q - x) (map (fun x => s * x) l))) end.
Lemma reversed_node q s c i : axis_ok c -> (i < count c)%nat -> node_at (reversed q s c) i = q - s * node_at c (count c - 1 - i).
Proof.
  intros O H. destruct c as [a b n|l]; cbn [reversed node_at count axis_ok] in *.
  - rewrite (minus_INR (n - 1) i) by lia. rewrite (INR_sub1 n) by lia. assert (INR n - 1 <> 0). { assert (2 <= INR n) by (change 2 with (INR 2); apply le_INR; exact O). lra. } field. exact H0.
  - rewrite map_map. set (m := map _ l). assert (Lm : length m = length l) by apply map_length. rewrite rev_nth by lia. rewrite Lm. replace (length l - S i)%nat with (length l - 1 - i)%nat by lia. unfold m. rewrite (nth_indep _ 0 (q - s * 0)) by (rewrite map_length; lia). apply (map_nth (fun x => q - s * x)).
Qed.
Lemma reversed_count q s c : count (reversed q s c) = count c.
Proof. destruct c; cbn [reversed count]; [reflexivity|]. rewrite rev_length, !map_length. reflexivity. Qed.
Lemma reversed_pos q s c b i : axis_ok c -> (i < size b c)%nat -> pos_at b (reversed q s c) i = q - s * pos_at b c (size b c - 1 - i).
Proof.
  intros O H. unfold pos_at, size in *. destruct b; [|apply reversed_node; assumption]. rewrite !reversed_node by (try assumption; lia). replace (count c - 1 - S i)%nat with (count c - 1 - 1 - i)%nat by lia. replace (S (count c - 1 - 1 - i)) with (count c - 1 - i)%nat by lia. field.
Qed.
Definition scaled (s : R) (c : cvals) : cvals := match c with Lin a b n => Lin (s * a) (s * b) n | Arr l => Arr (map (fun x => s * x) l) end.
Lemma scaled_pos s c b i : pos_at b (scaled s c) i = s * pos_at b c i.
Proof. unfold pos_at. destruct b; rewrite !(scale_node s c (scaled s c)) by reflexivity; field. Qed.
Lemma scaled_count s c : count (scaled s c) = count c.
Proof. destruct c; cbn [scaled count]; rewrite ?map_length; reflexivity. Qed.
Lemma size_count b c c' : count c = count c' -> size b c = size b c'.
Proof. unfold size. intros ->. reflexivity. Qed.

(* facts about the result of the conversion of the axis at d *)
Definition converted (f f' : fld) (d : bool) (target : axis) (u : cunit) (g : R -> R) : Prop :=
  wf f' /\ nm (get_ax f' d) = target /\ un (get_ax f' d) = u /\ get_ax f' (negb d) = get_ax f (negb d) /\
  cell f' = cell f /\ lay f' = lay f /\ comps f' = comps f /\ mapped d g f f'.
Lemma get_set f d a : get_ax (set_ax f d a) d = a.
Proof. destruct d; reflexivity. Qed.
Lemma get_set' f d a : get_ax (set_ax f d a) (negb d) = get_ax f (negb d).
Proof. destruct d; reflexivity. Qed.
(* an axis scaled in place *)
Lemma scaled_ok f d target u s : wf f -> converted f (set_ax f d (CAX target u (scaled s (cv (get_ax f d))))) d target u (fun x => s * x).
Proof.
  intros W. set (f' := set_ax f d _). destruct W as (Sh & O0 & O1). set (c := cv (get_ax f d)) in *. assert (Oc : axis_ok (scaled s c)) by (unfold c; destruct d; cbn [get_ax]; [destruct (cv (ax1 f))|destruct (cv (ax0 f))]; assumption). assert (Sc : forall b, size b (scaled s c) = size b c) by (intros b; apply size_count, scaled_count).
  assert (Cf : comps f' = comps f) by (destruct d; reflexivity). assert (E0 : cell f' = cell f) by (destruct d; reflexivity). assert (E1 : lay f' = lay f) by (destruct d; reflexivity). assert (Sp : shape f' = shape f) by (destruct d; reflexivity).
  unfold converted. unfold f'. rewrite get_set, get_set'. fold f'. split; [|split; [reflexivity|split; [reflexivity|split; [reflexivity|split; [exact E0|split; [exact E1|split; [exact Cf|]]]]]]].
  - unfold wf. rewrite Cf, E0, E1, Sp. unfold f', set_ax, get_ax in *. destruct d; cbn [ax0 ax1 cv]; rewrite ?Sc; auto.
  - intros z' k v. unfold val. rewrite Cf, E0. assert (En : forall i j, entry f' i j k = entry f i j k) by (intros i j; destruct d; reflexivity). unfold f', set_ax, get_ax in *. destruct d; cbn [ax0 ax1 cv negb] in *; setoid_rewrite Sc; setoid_rewrite scaled_pos; setoid_rewrite En.
    + split.
      * intros (i & j & Hi & Hj & Hk & X & Y & E). exists (fun b : bool => if b then pos_at (cell f) (cv (ax1 f)) j else z' false). split; [|auto]. exists i, j. auto 10.
      * intros (z & (i & j & Hi & Hj & Hk & X & Y & E) & A & B). exists i, j. rewrite A, B, <- X, <- Y. auto 10.
    + split.
      * intros (i & j & Hi & Hj & Hk & X & Y & E). exists (fun b : bool => if b then z' true else pos_at (cell f) (cv (ax0 f)) i). split; [|auto]. exists i, j. auto 10.
      * intros (z & (i & j & Hi & Hj & Hk & X & Y & E) & A & B). exists i, j. rewrite A, B, <- X, <- Y. auto 10.
Qed.
(* an axis reversed with its data *)
Lemma reversed_ok f d target u q s : wf f -> ~ (lay f = Flat /\ d = false) ->
  converted f (flip_dat (set_ax f d (CAX target u (reversed q s (cv (get_ax f d))))) (ddat f d)) d target u (fun x => q - s * x).
Proof.
  intros W NF. set (c := cv (get_ax f d)) in *. set (g := set_ax f d _). set (f' := flip_dat g _). destruct W as (Sh & O0 & O1). assert (Oo : axis_ok c) by (unfold c; destruct d; assumption). assert (Oc : axis_ok (reversed q s c)) by (destruct c; exact Oo). assert (Sc : forall b, size b (reversed q s c) = size b c) by (intros b; apply size_count, reversed_count).
  assert (Sg : shape g = shape f) by (unfold g; destruct d; reflexivity).
  assert (P : ax0 f' = ax0 g /\ ax1 f' = ax1 g /\ cell f' = cell f /\ lay f' = lay f /\ shape f' = shape f).
  { unfold f', flip_dat. rewrite Sg. destruct (shape f) as [[n0 n1] n2]. cbn [ax0 ax1 cell lay shape]. unfold g. destruct d; auto. }
  destruct P as (P0 & P1 & E0 & E1 & Sp). assert (Cf : comps f' = comps f) by (unfold comps; rewrite E1, Sp; reflexivity).
  assert (G : get_ax f' d = CAX target u (reversed q s c)) by (unfold get_ax; rewrite P0, P1; unfold g; destruct d; reflexivity). assert (G' : get_ax f' (negb d) = get_ax f (negb d)) by (unfold get_ax; rewrite P0, P1; unfold g; destruct d; reflexivity).
  unfold converted. rewrite G, G'. split; [|split; [reflexivity|split; [reflexivity|split; [reflexivity|split; [exact E0|split; [exact E1|split; [exact Cf|]]]]]]].
  - unfold wf. rewrite Cf, E0, E1, Sp. rewrite P0, P1. unfold g, set_ax. unfold c, get_ax in *. destruct d; cbn [ax0 ax1 cv]; rewrite ?Sc; auto.
  - (* the datum i of the result is the datum n - 1 - i of f *)
    assert (En : forall i j k, entry f' i j k = if d then entry f i (size (cell f) (cv (ax1 f)) - 1 - j) k else entry f (size (cell f) (cv (ax0 f)) - 1 - i) j k).
    { intros i j k. unfold entry. rewrite E1. unfold f', flip_dat, ddat. rewrite Sg, Sh. unfold g. destruct d, (lay f) eqn:L; cbn [set_ax dat Nat.ltb Nat.leb Nat.add]; try reflexivity. exfalso. apply NF. auto. }
    intros z' k v. unfold val. rewrite Cf, E0. setoid_rewrite En. clear En. unfold get_ax in G, G', c. destruct d; cbn [negb] in *; rewrite G, G'; cbn [cv]; rewrite Sc.
    + fold c. split.
      * intros (i & j & Hi & Hj & Hk & X & Y & E). set (j' := (size (cell f) c - 1 - j)%nat) in *. exists (fun b : bool => if b then pos_at (cell f) c j' else z' false). split; [|split; [|reflexivity]].
        -- exists i, j'. split; [exact Hi|]. split; [unfold j'; lia|]. auto 10.
        -- rewrite <- Y. apply reversed_pos; assumption.
      * intros (z & (i & j & Hi & Hj & Hk & X & Y & E) & A & B). exists i, (size (cell f) c - 1 - j)%nat. split; [exact Hi|]. split; [lia|]. split; [exact Hk|]. split; [congruence|]. assert (J : (size (cell f) c - 1 - (size (cell f) c - 1 - j))%nat = j) by lia. rewrite reversed_pos by (try assumption; lia). rewrite J, A, Y. split; [reflexivity|exact E].
    + fold c. split.
      * intros (i & j & Hi & Hj & Hk & X & Y & E). set (i' := (size (cell f) c - 1 - i)%nat) in *. exists (fun b : bool => if b then z' true else pos_at (cell f) c i'). split; [|split; [|reflexivity]].
        -- exists i', j. split; [unfold i'; lia|]. auto 10.
        -- rewrite <- X. apply reversed_pos; assumption.
      * intros (z & (i & j & Hi & Hj & Hk & X & Y & E) & A & B). exists (size (cell f) c - 1 - i)%nat, j. split; [lia|]. split; [exact Hj|]. split; [exact Hk|]. assert (J : (size (cell f) c - 1 - (size (cell f) c - 1 - i))%nat = i) by lia. rewrite reversed_pos by (try assumption; lia). rewrite J, A, X. split; [reflexivity|]. split; [congruence|exact E].
Qed.
Lemma final_nounit a : final a NoUnit = a.
Proof. reflexivity. Qed.
Lemma noop_ok f base target unit d : wf f -> ind f base = Some d -> nm (get_ax f d) = base -> compatible (un (get_ax f d)) unit ->
  exists f', fld_noop f base target unit = Ok f' /\ converted f f' d target (final (un (get_ax f d)) unit) (fun x => factor (un (get_ax f d)) unit * x).
Proof.
  intros W I N C. destruct (unit_ok _ _ C) as (u & U & Fu). unfold fld_noop, xform_common. rewrite I, U. cbn [bind]. set (s := factor _ _) in *.
  assert (K : bind (xform_vals (fun l => Ok (map (match u with None => fun x => x | Some g => g end) l)) (cv (get_ax f d))) (fun c => Ok (set_ax f d (CAX target (final (un (get_ax f d)) unit) c))) = Ok (set_ax f d (CAX target (final (un (get_ax f d)) unit) (scaled s (cv (get_ax f d)))))).
  { destruct (cv (get_ax f d)) as [xl xh n|l]; cbn [xform_vals bind map scaled]; [rewrite !Fu; reflexivity|]. do 4 f_equal. apply map_ext. exact Fu. }
  destruct (eq_axis base target) eqn:Ea; [apply eq_axis_true in Ea; destruct u as [g|]|].
  - eexists. split; [exact K|]. apply scaled_ok. exact W.
  - exists f. split; [reflexivity|]. unfold converted. assert (Fn : final (un (get_ax f d)) unit = un (get_ax f d)). { destruct C as [-> | [-> | [(A & ->)|(A & ->)]]]; [reflexivity|destruct (un _); reflexivity|rewrite A in U; discriminate|rewrite A in U; discriminate]. }
    rewrite Fn. split; [exact W|]. split; [congruence|]. repeat (split; [reflexivity|]). apply (mapped_ext d (fun x => x)); [exact Fu|apply mapped_id].
  - eexists. split; [destruct u; exact K|]. apply scaled_ok. exact W.
Qed.
Lemma flip_ok f base target unit d (sphere : bool) (conv : unit_t -> list R -> res (list R)) : wf f -> ind f base = Some d -> compatible (un (get_ax f d)) unit -> ~ (lay f = Flat /\ d = false) ->
  (forall l, incl l (nodes (cv (get_ax f d))) -> conv (as_unit unit) (map (fun x => factor (un (get_ax f d)) unit * x) l) = Ok (map (fun x => p90 (as_unit unit) - x) (map (fun x => factor (un (get_ax f d)) unit * x) l))) ->
  exists f', xform_common f base target unit (Some (fun l => bind (conv (as_unit unit) l) (fun l => Ok (rev l)))) = Ok f' /\
    converted f f' d target (final (un (get_ax f d)) unit) (fun x => p90 (as_unit unit) - factor (un (get_ax f d)) unit * x).
Proof.
  intros W I C NF Rg. destruct (unit_ok _ _ C) as (u & U & Fu). unfold xform_common. rewrite I, U. cbn [bind]. set (s := factor _ _) in *.
  assert (K : bind (xform_vals (fun l => bind (conv (as_unit unit) (map (match u with None => fun x => x | Some g => g end) l)) (fun l => Ok (rev l))) (cv (get_ax f d))) (fun c => Ok (flip_dat (set_ax f d (CAX target (final (un (get_ax f d)) unit) c)) (ddat f d))) = Ok (flip_dat (set_ax f d (CAX target (final (un (get_ax f d)) unit) (reversed (p90 (as_unit unit)) s (cv (get_ax f d))))) (ddat f d))).
  { assert (O : axis_ok (cv (get_ax f d))) by (destruct W as (_ & O0 & O1); destruct d; assumption). destruct (cv (get_ax f d)) as [xl xh n|l]; cbn [xform_vals].
    - rewrite (map_ext _ (fun x => s * x)) by exact Fu. rewrite Rg; [reflexivity|]. cbn [axis_ok] in O. intros x [<-|[<-|[]]]; cbn [nodes]; apply in_map_iff.
      + exists 0%nat. split; [cbn [INR]; ring|]. apply in_seq. lia.
      + exists (n - 1)%nat. assert (INR (n - 1) <> 0). { rewrite INR_sub1 by lia. assert (2 <= INR n) by (change 2 with (INR 2); apply le_INR; exact O). lra. } split; [field; assumption|]. apply in_seq. lia.
    - rewrite (map_ext _ (fun x => s * x)) by exact Fu. rewrite Rg by (apply incl_refl). reflexivity. }
  eexists. split; [destruct (eq_axis base target); destruct u; exact K|]. apply reversed_ok; assumption.
Qed.

(** * as_mapfield and as_spherefield *)
(* the targets of as_mapfield and as_spherefield *)
Definition around_target (sphere : bool) : axis := if sphere then Phi else Lon.
Definition along_target (sphere : bool) : axis := if sphere then Theta else Lat.
(* legal angles before the conversion: 0 .. 180 for theta, -90 .. 90 for latitudes *)
Definition legal (ax : axis) (u : cunit) (x : R) : Prop :=
  match ax with Theta => 0 <= x <= 2 * quarter u | _ => - quarter u <= x <= quarter u end.
Lemma swap_ok f : wf f -> wf (swap_axes f) /\ ax0 (swap_axes f) = ax1 f /\ ax1 (swap_axes f) = ax0 f /\ forall z k v, val (swap_axes f) z k v <-> val f (fun d => z (negb d)) k v.
Proof.
  intros (Sh & O0 & O1). unfold swap_axes. set (c := comps f) in *.  rewrite Sh. destruct (lay f) eqn:L; cbn [ax0 ax1].
  - split; [unfold wf; cbn [shape lay cell ax0 ax1]; unfold comps; cbn [shape lay]; auto|]. split; [reflexivity|]. split; [reflexivity|]. intros z k v. unfold val, entry, comps. cbn [shape lay cell ax0 ax1 dat negb]. fold c. rewrite L, Sh. split; intros (i & j & Hi & Hj & Hk & X & Y & E); exists j, i; auto 10.
  - split; [unfold wf; cbn [shape lay cell ax0 ax1]; unfold comps; cbn [shape lay]; auto|]. split; [reflexivity|]. split; [reflexivity|]. intros z k v. unfold val, entry, comps. cbn [shape lay cell ax0 ax1 dat negb]. fold c. rewrite L, Sh. split; intros (i & j & Hi & Hj & Hk & X & Y & E); exists j, i; auto 10.
  - split; [unfold wf; cbn [shape lay cell ax0 ax1]; unfold comps; cbn [shape lay]; auto|]. split; [reflexivity|]. split; [reflexivity|]. intros z k v. unfold val, entry, comps. cbn [shape lay cell ax0 ax1 dat negb]. fold c. rewrite L, Sh. split; intros (i & j & Hi & Hj & Hk & X & Y & E); exists j, i; auto 10.
Qed.
Lemma ind_spec f d b : nm (get_ax f d) = b -> nm (get_ax f (negb d)) <> b -> ind f b = Some d.
Proof.
  intros A B. unfold ind. destruct d; cbn [get_ax negb] in *.
  - destruct (eq_axis (nm (ax0 f)) b) eqn:E; [apply eq_axis_true in E; congruence|]. destruct (eq_axis (nm (ax1 f)) b) eqn:E'; [reflexivity|]. apply eq_axis_true in A. congruence.
  - apply eq_axis_true in A. rewrite A. reflexivity.
Qed.
Lemma two_steps f f1 f2 d t1 t2 u1 u2 g1 g2 : converted f f1 d t1 u1 g1 -> converted f1 f2 (negb d) t2 u2 g2 ->
  wf f2 /\ nm (get_ax f2 d) = t1 /\ un (get_ax f2 d) = u1 /\ nm (get_ax f2 (negb d)) = t2 /\ un (get_ax f2 (negb d)) = u2 /\
  forall z' k v, val f2 z' k v <-> exists z, val f z k v /\ z' d = g1 (z d) /\ z' (negb d) = g2 (z (negb d)).
Proof.
  intros (W1 & N1 & U1 & K1 & C1 & L1 & P1 & M1) (W2 & N2 & U2 & K2 & C2 & L2 & P2 & M2). rewrite negb_involutive in *. rewrite K2. split; [exact W2|]. split; [exact N1|]. split; [exact U1|]. split; [exact N2|]. split; [exact U2|].
  intros z' k v. rewrite (M2 z' k v). split.
  - intros (z1 & V1 & A & B). apply M1 in V1. destruct V1 as (z & V & A' & B'). rewrite negb_involutive in B. exists z. split; [exact V|]. split; [congruence|congruence].
  - intros (z & V & A & B). rewrite negb_involutive. exists (fun b => if Bool.eqb b d then g1 (z d) else z (negb d)). split.
    + apply M1. exists z. split; [exact V|]. rewrite Bool.eqb_reflx. split; [reflexivity|]. destruct d; reflexivity.
    + rewrite Bool.eqb_reflx. split; [|exact A]. destruct d; exact B.
Qed.
Definition how_of (sphere : bool) (src : axis) : how := if eq_axis src (along_target sphere) then Noop else Flip.
Lemma plan_ok (sphere : bool) f d order : around_axis (nm (get_ax f d)) -> along_axis (nm (get_ax f (negb d))) ->
  let qa := (around_target sphere, (nm (get_ax f d), Noop)) in
  let ql := (along_target sphere, (nm (get_ax f (negb d)), how_of sphere (nm (get_ax f (negb d))))) in
  let b := bases (if sphere then sphere_mapping else map_mapping) [nm (ax0 f); nm (ax1 f)] order in
  b = Some [qa; ql] /\ plan [qa; ql] [around_target sphere; along_target sphere] = Some [qa; ql] /\ plan [qa; ql] [along_target sphere; around_target sphere] = Some [ql; qa].
Proof.
  intros A L. cbv zeta. split; [|split; destruct sphere; reflexivity]. destruct d; cbn [get_ax negb] in *; destruct A as [A|A], L as [L|L]; rewrite A, L; destruct sphere; reflexivity.
Qed.
(** as_mapfield and as_spherefield of a field over (phi | lon) and (theta | lat), in any order of its
    axes: the result has the axes asked for, and its values are those of the field at the same
    places: longitude and phi are the same angle, latitude is a quarter turn minus theta. *)
Theorem C61_convert : forall (sphere : bool) f d order unit, wf f ->
  let aa := get_ax f d in let al := get_ax f (negb d) in
  around_axis (nm aa) -> along_axis (nm al) ->
  order = [around_target sphere; along_target sphere] \/ order = [along_target sphere; around_target sphere] ->
  compatible (un aa) unit -> compatible (un al) unit ->
  (nm al <> along_target sphere ->
     ~ (lay f = Flat /\ negb d = false) /\ (unit = NoUnit -> un al <> URad) /\
     forall i, (i < count (cv al))%nat -> legal (nm al) (final (un al) unit) (factor (un al) unit * node_at (cv al) i)) ->
  exists f', (if sphere then as_spherefield else as_mapfield) f order unit = Ok f' /\ wf f' /\
    [nm (ax0 f'); nm (ax1 f')] = order /\
    (forall e, nm (get_ax f' e) = around_target sphere -> un (get_ax f' e) = final (un aa) unit) /\
    (forall e, nm (get_ax f' e) = along_target sphere -> un (get_ax f' e) = final (un al) unit) /\
    forall q k v, value f' q k v <-> exists p, value f p k v /\
      q (around_target sphere) = factor (un aa) unit * p (nm aa) /\
      q (along_target sphere) = (if eq_axis (nm al) (along_target sphere) then factor (un al) unit * p (nm al) else quarter (final (un al) unit) - factor (un al) unit * p (nm al)).
Proof.
  intros sphere f d order unit W aa al A L O Ca Cl H.
  set (ta := around_target sphere) in *. set (tl := along_target sphere) in *. set (ga := fun x => factor (un aa) unit * x). set (gl := fun x => if eq_axis (nm al) tl then factor (un al) unit * x else quarter (final (un al) unit) - factor (un al) unit * x).
  assert (Tn : ta <> tl) by (unfold ta, tl; destruct sphere; discriminate). assert (Na : nm aa <> nm al) by (destruct A as [-> | ->], L as [-> | ->]; discriminate). assert (Nat' : nm aa <> tl) by (unfold tl; destruct A as [-> | ->], sphere; discriminate). assert (Nlt : nm al <> ta) by (unfold ta; destruct L as [-> | ->], sphere; discriminate).
  (* each axis by itself, on any field that still has it *)
  assert (Sa : forall f1, wf f1 -> get_ax f1 d = aa -> nm (get_ax f1 (negb d)) <> nm aa -> exists f2, step sphere unit (Ok f1) (ta, (nm aa, Noop)) = Ok f2 /\ converted f1 f2 d ta (final (un aa) unit) ga).
  { intros f1 W1 G N. cbn [step bind]. assert (I : ind f1 (nm aa) = Some d) by (apply ind_spec; [rewrite G; reflexivity|exact N]). destruct (noop_ok f1 (nm aa) ta unit d W1 I) as (f2 & E2 & R2); [rewrite G; reflexivity|rewrite G; exact Ca|]. rewrite G in R2. exists f2. split; assumption. }
  assert (Sl : forall f1, wf f1 -> lay f1 = lay f -> get_ax f1 (negb d) = al -> nm (get_ax f1 d) <> nm al -> exists f2, step sphere unit (Ok f1) (tl, (nm al, how_of sphere (nm al))) = Ok f2 /\ converted f1 f2 (negb d) tl (final (un al) unit) gl).
  { intros f1 W1 Lf G N. cbn [step bind]. assert (I : ind f1 (nm al) = Some (negb d)) by (apply ind_spec; [rewrite G; reflexivity|rewrite negb_involutive; exact N]). unfold how_of. fold tl. unfold gl. destruct (eq_axis (nm al) tl) eqn:Et.
    - destruct (noop_ok f1 (nm al) tl unit (negb d) W1 I) as (f2 & E2 & R2); [rewrite G; reflexivity|rewrite G; exact Cl|]. rewrite G in R2. exists f2. split; assumption.
    - destruct H as (NF & Nr & Rg); [intros Q; apply eq_axis_true in Q; congruence|]. assert (Pq : p90 (as_unit unit) = quarter (final (un al) unit)). { destruct Cl as [-> | [-> | [(Q & ->)|(Q & ->)]]]; [|destruct (un al); reflexivity|reflexivity|reflexivity]. cbn [as_unit p90 final]. specialize (Nr eq_refl). destruct (un al); try reflexivity; congruence. }
      assert (Ph : 2 * p90 (as_unit unit) = half_turn (as_unit unit)) by (destruct (as_unit unit); cbn; field).
      assert (In_node : forall x, In x (nodes (cv al)) -> exists i, (i < count (cv al))%nat /\ x = node_at (cv al) i). { intros x Ix. destruct (cv al) as [xl xh n|l]; cbn [nodes count node_at] in *; [apply in_map_iff in Ix; destruct Ix as (i & <- & Ii); apply in_seq in Ii; exists i; split; [lia|reflexivity]|]. apply (In_nth _ _ 0) in Ix. destruct Ix as (i & Hi & <-). exists i. auto. }
      assert (F : exists f2, xform_common f1 (nm al) tl unit (Some (fun l => bind ((if sphere then lat2theta else theta2lat) (as_unit unit) l) (fun l => Ok (rev l)))) = Ok f2 /\ converted f1 f2 (negb d) tl (final (un (get_ax f1 (negb d))) unit) (fun x => p90 (as_unit unit) - factor (un (get_ax f1 (negb d))) unit * x)).
      { apply (flip_ok f1 (nm al) tl unit (negb d) sphere (if sphere then lat2theta else theta2lat) W1 I); rewrite ?G; [exact Cl|rewrite Lf; exact NF|]. intros l Il. set (l' := map _ l). assert (Fl : Forall (fun y => legal (nm al) (final (un al) unit) y) l'). { unfold l'. rewrite Forall_map, Forall_forall. intros x Ix. destruct (In_node x (Il x Ix)) as (i & Hi & ->). apply Rg. exact Hi. }
        clear Rg In_node. destruct sphere.
        - assert (An : nm al = Lat) by (unfold tl, along_target in Et; destruct L as [Q|Q]; rewrite Q in *; [discriminate|reflexivity]). rewrite An in Fl. unfold legal in Fl. rewrite <- Pq in Fl. destruct (C60_lat2theta (as_unit unit) l') as (K & _). destruct K as (th & K & _); [rewrite <- Ph; eapply Forall_impl; [|exact Fl]; cbn beta; intros y; lra|]. rewrite K. unfold lat2theta in K. destruct (_ || _)%bool; [discriminate|]. symmetry. exact K.
        - assert (An : nm al = Theta) by (unfold tl, along_target in Et; destruct L as [Q|Q]; rewrite Q in *; [reflexivity|discriminate]). rewrite An in Fl. unfold legal in Fl. rewrite <- Pq, Ph in Fl. rewrite (proj1 (C60_theta2lat (as_unit unit) l') Fl). f_equal. apply map_ext. intros y. lra. }
      rewrite G, Pq in F. destruct sphere; exact F. }
  (* both *)
  destruct (plan_ok sphere f d order A L) as (Pb & P1 & P2). fold aa al ta tl in Pb, P1, P2.
  assert (Both : exists p r, plan [(ta, (nm aa, Noop)); (tl, (nm al, how_of sphere (nm al)))] order = Some p /\ fold_left (step sphere unit) p (Ok f) = Ok r /\ wf r /\ nm (get_ax r d) = ta /\ un (get_ax r d) = final (un aa) unit /\ nm (get_ax r (negb d)) = tl /\ un (get_ax r (negb d)) = final (un al) unit /\ forall z' k v, val r z' k v <-> exists z, val f z k v /\ z' d = ga (z d) /\ z' (negb d) = gl (z (negb d))).
  { destruct O as [-> | ->].
    - destruct (Sa f W eq_refl) as (f1 & E1 & R1); [fold al; congruence|]. pose proof R1 as (W1 & N1 & U1 & K1 & C1 & L1 & Cp1 & M1). destruct (Sl f1 W1 L1 K1) as (f2 & E2 & R2); [rewrite N1; congruence|]. destruct (two_steps _ _ _ _ _ _ _ _ _ _ R1 R2) as (W2 & X1 & X2 & X3 & X4 & X5). do 2 eexists. split; [exact P1|]. split; [cbn [fold_left]; rewrite E1, E2; reflexivity|]. auto 10.
    - destruct (Sl f W eq_refl eq_refl) as (f1 & E1 & R1); [fold aa; congruence|]. pose proof R1 as (W1 & N1 & U1 & K1 & C1 & L1 & Cp1 & M1). rewrite negb_involutive in K1. destruct (Sa f1 W1 K1) as (f2 & E2 & R2); [rewrite N1; congruence|]. assert (R2' : converted f1 f2 (negb (negb d)) ta (final (un aa) unit) ga) by (rewrite negb_involutive; exact R2). destruct (two_steps _ _ _ _ _ _ _ _ _ _ R1 R2') as (W2 & X1 & X2 & X3 & X4 & X5). rewrite negb_involutive in X3, X4. do 2 eexists. split; [exact P2|]. split; [cbn [fold_left]; rewrite E1, E2; reflexivity|]. split; [exact W2|]. split; [exact X3|]. split; [exact X4|]. split; [exact X1|]. split; [exact X2|].
      intros z' k v. rewrite (X5 z' k v). rewrite negb_involutive. split; intros (z & V & Q1 & Q2); exists z; auto. }
  destruct Both as (p & r & Ep & Er & Wr & Na' & Ua & Nl & Ul & Mr).
  (* the final order of the axes *)
  assert (Fin : exists f', (if sphere then as_spherefield else as_mapfield) f order unit = Ok f' /\ wf f' /\ exists e, nm (get_ax f' e) = ta /\ nm (get_ax f' (negb e)) = tl /\ get_ax f' e = get_ax r d /\ get_ax f' (negb e) = get_ax r (negb d) /\ [nm (ax0 f'); nm (ax1 f')] = order /\ forall z' k v, val f' (fun b => if Bool.eqb b e then z' d else z' (negb d)) k v <-> val r z' k v).
  { assert (Eo : (if sphere then as_spherefield else as_mapfield) f order unit = bind (Ok r) (fun r => match order with [o0; o1] => if (eq_axis o0 (nm (ax0 r)) && eq_axis o1 (nm (ax1 r)))%bool then Ok r else if (eq_axis o0 (nm (ax1 r)) && eq_axis o1 (nm (ax0 r)))%bool then Ok (swap_axes r) else ValueError | _ => ValueError end)) by (rewrite <- Er; destruct sphere; unfold as_spherefield, as_mapfield, convert; rewrite Pb, Ep; reflexivity).
    rewrite Eo. cbn [bind]. destruct (swap_ok r Wr) as (Ws & S0 & S1 & Sv).
    assert (T1 : eq_axis ta ta = true) by (apply eq_axis_true; reflexivity). assert (T2 : eq_axis tl tl = true) by (apply eq_axis_true; reflexivity). assert (T3 : eq_axis ta tl = false) by (destruct (eq_axis ta tl) eqn:Q; [apply eq_axis_true in Q; congruence|reflexivity]). assert (T4 : eq_axis tl ta = false) by (destruct (eq_axis tl ta) eqn:Q; [apply eq_axis_true in Q; congruence|reflexivity]).
    destruct d; cbn [get_ax negb] in *; destruct O as [-> | ->]; rewrite Na', Nl, ?T1, ?T2, ?T3, ?T4; cbn [andb]; eexists; (split; [reflexivity|]); (split; [first [exact Ws|exact Wr]|]).
    - exists false. cbn [negb get_ax]. rewrite S0, S1. repeat (split; [congruence|]). intros z' k v. rewrite Sv. cbn [negb Bool.eqb]. split; apply val_ext; reflexivity.
    - exists true. cbn [negb get_ax]. repeat (split; [congruence|]). intros z' k v. cbn [Bool.eqb]. split; apply val_ext; reflexivity.
    - exists false. cbn [negb get_ax]. repeat (split; [congruence|]). intros z' k v. cbn [Bool.eqb]. split; apply val_ext; reflexivity.
    - exists true. cbn [negb get_ax]. rewrite S0, S1. repeat (split; [congruence|]). intros z' k v. rewrite Sv. cbn [negb Bool.eqb]. split; apply val_ext; reflexivity. }
  destruct Fin as (f' & Ef & Wf & e & Fa & Fl & Ga & Gl & Fo & Fv). exists f'. split; [exact Ef|]. split; [exact Wf|]. split; [exact Fo|].
  assert (Only : forall e', nm (get_ax f' e') = ta -> e' = e). { intros e' Q. destruct (Bool.eqb e' e) eqn:Qe; [apply Bool.eqb_prop; exact Qe|]. assert (e' = negb e) by (destruct e', e; cbn in *; congruence). subst e'. congruence. }
  assert (Only' : forall e', nm (get_ax f' e') = tl -> e' = negb e). { intros e' Q. destruct (Bool.eqb e' (negb e)) eqn:Qe; [apply Bool.eqb_prop; exact Qe|]. assert (e' = e) by (destruct e', e; cbn in *; congruence). subst e'. congruence. }
  split; [intros e' Q; rewrite (Only e' Q), Ga; exact Ua|]. split; [intros e' Q; rewrite (Only' e' Q), Gl; exact Ul|].
  intros q k v.
  assert (V1 : value f' q k v <-> val r (fun b => if Bool.eqb b d then q ta else q tl) k v).
  { rewrite <- Fv. unfold value. rewrite Bool.eqb_reflx. replace (Bool.eqb (negb d) d) with false by (destruct d; reflexivity). destruct e; cbn [get_ax negb] in *; split; apply val_ext; cbn [Bool.eqb]; congruence. }
  rewrite V1, Mr. clear V1. rewrite Bool.eqb_reflx. replace (Bool.eqb (negb d) d) with false by (destruct d; reflexivity). split.
  - intros (z & V & Q1 & Q2). exists (fun a => if eq_axis a (nm aa) then z d else z (negb d)). assert (Xa : eq_axis (nm aa) (nm aa) = true) by (apply eq_axis_true; reflexivity). assert (Xl : eq_axis (nm al) (nm aa) = false) by (destruct (eq_axis (nm al) (nm aa)) eqn:Q; [apply eq_axis_true in Q; congruence|reflexivity]). rewrite Xa, Xl. split; [|split; [exact Q1|exact Q2]]. unfold value. revert V. unfold aa, al in Xa, Xl. destruct d; cbn [get_ax negb] in *; apply val_ext; unfold aa; cbn [get_ax]; rewrite ?Xa, ?Xl; reflexivity.
  - intros (p0 & V & Q1 & Q2). exists (fun b : bool => p0 (nm (if b then ax1 f else ax0 f))). split; [exact V|]. unfold aa, al in Q1, Q2. destruct d; cbn [get_ax negb] in *; auto.
Qed.
Print Assumptions C61_convert.

(** Not proved because false: the values of flat vector fields stay with their places.  If theta is
    the first axis, the components are reversed in place of the latitudes. *)
Theorem C61_flat_refuted : exists f f' p q,
  wf f /\ nm (ax0 f) = Theta /\ nm (ax1 f) = Phi /\ as_mapfield f [Lon; Lat] UDeg = Ok f' /\
  p Theta = 90 /\ q Lat = 0 /\ p Phi = 0 /\ q Lon = 0 /\ value f p 0 1 /\ forall v, value f' q 0 v -> v = 10.
Proof.
  set (f := FLD (CAX Theta UDeg (Arr [0; 90])) (CAX Phi UDeg (Arr [0])) false Flat (2, 2, 1)%nat (fun k i j => 10 * INR k + INR i)).
  exists f. eexists. exists (fun a => match a with Theta => 90 | _ => 0 end), (fun a => 0). split; [unfold wf; cbn; auto|]. split; [reflexivity|]. split; [reflexivity|]. split.
  - unfold as_mapfield, convert. cbn [nm ax0 ax1 f bases map_mapping find has_axis existsb eq_axis fst orb plan fold_left step bind]. unfold fld_noop at 1, xform_common at 1. cbn [ind f ax0 ax1 nm eq_axis get_ax un unit_xform eq_unit bind cv xform_vals map set_ax cell lay shape dat]. unfold fld_theta2lat, xform_common. cbn [ind ax0 ax1 nm eq_axis get_ax un unit_xform eq_unit bind cv xform_vals map as_unit]. rewrite (proj1 (C60_theta2lat Deg [0; 90])) by (repeat constructor; cbn [half_turn]; lra). cbn [bind map rev app set_ax ax0 ax1 cell lay shape dat ddat Nat.ltb Nat.leb flip_dat nm eq_axis andb swap_axes half_turn]. reflexivity.
  - repeat (split; [reflexivity|]). split.
    + unfold value, val. exists 1%nat, 0%nat. cbn. repeat (split; [lia||lra|]). lra.
    + intros v (i & j & Hi & Hj & _ & X & Y & E). cbn [cell ax0 ax1 cv size count length] in *. assert (i = 0)%nat by lia. subst i. assert (j = 0 \/ j = 1)%nat as [-> | ->] by lia; cbn in *; lra.
Qed.
Print Assumptions C61_flat_refuted.

(** Not proved because false: without units as_mapfield keeps the unit of the field.  The latitudes
    of a field in radians are 90 - theta, still labelled as radians. *)
Theorem C61_radians_refuted : exists f f' p,
  wf f /\ un (ax1 f) = URad /\ value f p 0 7 /\ p Theta = PI / 2 /\
  as_mapfield f [Lon; Lat] NoUnit = Ok f' /\ un (ax1 f') = URad /\ nm (ax1 f') = Lat /\ value f' (fun a => match a with Lat => 90 - PI / 2 | _ => 0 end) 0 7 /\ PI / 2 < 90 - PI / 2.
Proof.
  pose proof pi_bounds as Pb.
  set (f := FLD (CAX Phi URad (Arr [0])) (CAX Theta URad (Arr [PI / 2])) false Scalar (1, 1, 1)%nat (fun i j k => 7)).
  exists f. eexists. exists (fun a => match a with Theta => PI / 2 | _ => 0 end). split; [unfold wf; cbn; auto|]. split; [reflexivity|]. split; [exists 0%nat, 0%nat; cbn; repeat (split; [lia||reflexivity|]); reflexivity|]. split; [reflexivity|]. split.
  - unfold as_mapfield, convert. cbn [nm ax0 ax1 f bases map_mapping find has_axis existsb eq_axis fst orb plan fold_left step bind]. unfold fld_noop at 1, xform_common at 1. cbn [ind f ax0 ax1 nm eq_axis get_ax un unit_xform eq_unit bind cv xform_vals map set_ax cell lay shape dat]. unfold fld_theta2lat, xform_common. cbn [ind ax0 ax1 nm eq_axis get_ax un unit_xform eq_unit bind cv xform_vals map as_unit]. rewrite (proj1 (C60_theta2lat Deg [PI / 2])) by (repeat constructor; cbn [half_turn]; lra). cbn [bind map rev app set_ax ax0 ax1 cell lay shape dat ddat Nat.ltb Nat.leb flip_dat nm eq_axis andb swap_axes half_turn]. reflexivity.
  - split; [reflexivity|]. split; [reflexivity|]. split; [|lra]. exists 0%nat, 0%nat. cbn. repeat (split; [lia||lra|]). lra.
Qed.
Print Assumptions C61_radians_refuted.

(** Not proved because false: fields with more axes (r, t) can be converted.  No order of axes works. *)
Lemma has_axis_in l a : has_axis l a = true <-> In a l.
Proof. unfold has_axis. rewrite existsb_exists. split; [intros (x & I & E); apply eq_axis_true in E; subst; exact I|]. intros I. exists a. split; [exact I|apply eq_axis_true; reflexivity]. Qed.
Lemma bases_keys m axes order b : bases m axes order = Some b -> map fst b = map fst m.
Proof.
  revert b. induction m as [|(t, l) m IH]; intros b H; cbn [bases] in H; [injection H as <-; reflexivity|].
  destruct (match find _ l with Some p => Some p | None => _ end) as [p|]; [|discriminate]. destruct (bases m axes order) as [r|] eqn:E; [|discriminate]. injection H as <-. cbn [map fst]. rewrite (IH r eq_refl). reflexivity.
Qed.
Lemma bases_source m axes order b q : bases m axes order = Some b -> In q b -> (forall t l, In (t, l) m -> t <> Other /\ ~ In Other (map fst l)) -> fst (snd q) <> Other.
Proof.
  revert b. induction m as [|(t, l) m IH]; intros b H I M; cbn [bases] in H; [injection H as <-; destruct I|].
  destruct (find _ l) as [p0|] eqn:F.
  - destruct (bases m axes order) as [r|] eqn:E; [|discriminate]. injection H as <-. destruct I as [<-|I]; [|apply (IH r eq_refl I); intros t' l' I'; apply M; right; exact I']. cbn [fst snd]. apply find_some in F. destruct F as (F & _). destruct (M t l (or_introl eq_refl)) as (_ & N). intros Q. apply N. rewrite <- Q. apply in_map. exact F.
  - destruct (has_axis order t); [|discriminate]. destruct (bases m axes order) as [r|] eqn:E; [|discriminate]. injection H as <-. destruct I as [<-|I]; [|apply (IH r eq_refl I); intros t' l' I'; apply M; right; exact I']. cbn [fst snd]. apply (M t l). left. reflexivity.
Qed.
Lemma plan_keys b order p : plan b order = Some p -> incl order (map fst b) /\ incl p b.
Proof.
  revert p. induction order as [|t order IH]; intros p H; cbn [plan] in H; [injection H as <-; split; intros x []|]. destruct (find _ b) as [q|] eqn:F; [|discriminate]. destruct (plan b order) as [r|] eqn:E; [|discriminate]. injection H as <-. destruct (IH r eq_refl) as (A & B). apply find_some in F. destruct F as (F & Q). apply eq_axis_true in Q. split; intros x [<-|I]; auto. rewrite <- Q. apply in_map. exact F.
Qed.
Theorem C61_axes_refuted : forall (sphere : bool) axes order, In Other axes \/ In Other order ->
  convertible (if sphere then sphere_mapping else map_mapping) axes order = false.
Proof.
  intros sphere axes order H. set (m := if sphere then sphere_mapping else map_mapping). assert (M : forall t l, In (t, l) m -> t <> Other /\ ~ In Other (map fst l)). { unfold m. intros t l I. destruct sphere; cbn in I; destruct I as [I|[I|[]]]; injection I as <- <-; cbn; (split; [discriminate|]); intros [Q|[Q|[]]]; discriminate. }
  unfold convertible. destruct (bases m axes order) as [b|] eqn:B; [|reflexivity]. destruct (plan b order) as [p|] eqn:P; [|reflexivity]. destruct (plan_keys _ _ _ P) as (K1 & K2). rewrite (bases_keys _ _ _ _ B) in K1.
  assert (NO : ~ In Other order). { intros I. apply K1 in I. apply in_map_iff in I. destruct I as ((t, l) & Q & I). destruct (M t l I) as (N & _). cbn [fst] in Q. congruence. }
  destruct H as [H|H]; [|contradiction]. cbv zeta. assert (In Other (fold_left (fun axes q => map (fun a => if eq_axis a (fst (snd q)) then fst q else a) axes) p axes)).
  { assert (S : forall q, In q p -> fst (snd q) <> Other) by (intros q I; apply (bases_source m axes order b q B (K2 q I) M)). clear P K2. revert axes H S B. induction p as [|q p IH]; intros axes H S B; [exact H|]. cbn [fold_left]. clear B. revert H. set (axes1 := map _ axes). intros H.
    assert (I1 : In Other axes1). { unfold axes1. apply in_map_iff. exists Other. split; [|exact H]. destruct (eq_axis Other (fst (snd q))) eqn:Q; [apply eq_axis_true in Q; exfalso; apply (S q); [left; reflexivity|congruence]|reflexivity]. }
    clearbody axes1. clear H axes. assert (S' : forall q, In q p -> fst (snd q) <> Other) by (intros q' I; apply S; right; exact I). clear IH S q. revert axes1 I1. induction p as [|q p IH]; intros axes1 I1; [exact I1|]. cbn [fold_left]. apply IH; [intros q' I; apply S'; right; exact I|]. apply in_map_iff. exists Other. split; [|exact I1]. destruct (eq_axis Other (fst (snd q))) eqn:Q; [apply eq_axis_true in Q; exfalso; apply (S' q); [left; reflexivity|congruence]|reflexivity]. }
  apply andb_false_intro2. unfold can_transpose. apply andb_false_intro2. destruct (forallb _ _) eqn:F; [|reflexivity]. exfalso. rewrite forallb_forall in F. apply NO. apply has_axis_in. apply F. exact H0.
Qed.
Print Assumptions C61_axes_refuted.

(** * polar plots *)
(** The second axis of a polar plot is the angle from the pole of the hemisphere, as for points. *)
Theorem C61_polar_axis : forall h c b i, h <> NoHemisphere -> (i < size b c)%nat -> pos_at b (polar_vals h c) i = from_pole h Lat (pos_at b c i).
Proof.
  intros h c b i Hh Hi. assert (N : forall j, (j < count c)%nat -> node_at (polar_vals h c) j = polar_scale h * node_at c j + PI / 2).
  { intros j Hj. destruct c as [xl xh n|l]; cbn [polar_vals node_at]; [unfold Rdiv; ring|]. rewrite (nth_indep _ 0 (polar_scale h * 0 + PI / 2)) by (rewrite map_length; exact Hj). apply (map_nth (fun x => polar_scale h * x + PI / 2)). }
  unfold pos_at, size in *. destruct b; [rewrite !N by lia|rewrite N by exact Hi]; unfold from_pole; destruct h; try congruence; cbn [polar_scale]; field.
Qed.
Print Assumptions C61_polar_axis.

(** make_periodic of nonuniform longitudes repeats the first row a full turn further, if they do not span one. *)
Theorem C61_periodic : forall A (l : list R) (rows : list A) r x, hd_error l = Some x -> hd_error rows = Some r ->
  (last l 0 - x < 2 * PI - 1 / 10 ^ 5 -> make_periodic (Arr l) rows = (Arr (l ++ [x + 2 * PI]), rows ++ [r])) /\
  (2 * PI - 1 / 10 ^ 5 <= last l 0 - x -> make_periodic (Arr l) rows = (Arr l, rows)).
Proof.
  intros A [|x0 l] [|r0 rows] r x X Rr; try discriminate. injection X as ->. injection Rr as ->. unfold make_periodic, ltb. cbn [hd firstn]. destruct (Rlt_dec _ _) as [L|L]; (split; [intros K|intros K]); try reflexivity; lra.
Qed.
Print Assumptions C61_periodic.

(** Not proved because false: the same for uniform longitudes.  The data gets one row more, the axis does not. *)
Theorem C61_periodic_refuted : forall A xl xh n (rows : list A), length rows = n -> (1 <= n)%nat -> xh - xl < 2 * PI - 1 / 10 ^ 5 ->
  count (fst (make_periodic (Lin xl xh n) rows)) = n /\ length (snd (make_periodic (Lin xl xh n) rows)) = S n.
Proof.
  intros A xl xh n rows L N H. unfold make_periodic, ltb. destruct (Rlt_dec _ _); [|contradiction]. cbn [fst snd count]. split; [reflexivity|]. rewrite app_length. destruct rows; cbn [length firstn] in *; lia.
Qed.
Print Assumptions C61_periodic_refuted.

(** Not proved because false: whole spheres are cut at 40 degrees from the pole by default and
    fields that cover the hemisphere are shown.  The default is always 90 degrees, and then a field
    without data exactly at the pole, like every cell centred field, is refused.  With 40 degrees a
    field is accepted that has no data within 40 degrees of the pole. *)
Lemma midpoints_inside a b l : (forall i, (S i < length l)%nat -> nth i l 0 < nth (S i) l 0) -> Forall (fun x => a <= x <= b) l -> Forall (fun x => a < x < b) (midpoints l).
Proof.
  induction l as [|x l IH]; intros S F; [constructor|]. inversion F as [|x' l' Hx Hl]; subst. destruct l as [|y l]; [constructor|]. cbn [midpoints]. constructor.
  - inversion Hl; subst. specialize (S 0%nat). cbn [nth length] in S. specialize (S ltac:(lia)). lra.
  - apply IH; [|exact Hl]. intros i Hi. apply (S (Datatypes.S i)). cbn [length] in *. lia.
Qed.
Theorem C61_polar_default_refuted :
  (forall xl xh, - (PI / 2) <= xl <= PI / 2 -> - (PI / 2) <= xh <= PI / 2 -> default_bounding_lat xl xh = 90) /\
  (forall f d h, cell f = true -> (forall i, (S i < length (nodes (cv (get_ax f d))))%nat -> nth i (nodes (cv (get_ax f d))) 0 < nth (S i) (nodes (cv (get_ax f d))) 0) ->
     Forall (fun x => - (PI / 2) <= x <= PI / 2) (nodes (cv (get_ax f d))) -> polar_raises (crd f d) 90 h = true) /\
  polar_raises [45 * (PI / 180)] 40 North = false /\ 40 * (PI / 180) < from_pole North Lat (45 * (PI / 180)).
Proof.
  pose proof pi_bounds as Pb. split; [|split; [|split]].
  - intros xl xh H1 H2. unfold default_bounding_lat. destruct (Rle_dec _ _) as [L|]; [|reflexivity]. exfalso. assert (Rabs (xh - xl) <= PI) by (apply Rabs_le; lra). lra.
  - intros f d h C S F. unfold crd. rewrite C. pose proof (midpoints_inside _ _ _ S F) as M. set (l := midpoints _) in *. clearbody l. rewrite Forall_forall in M. unfold polar_raises. assert (B : Rabs (PI / 180 * 90) = PI / 2) by (rewrite Rabs_right by lra; field). rewrite B. destruct h; [| |reflexivity]; apply forallb_forall; intros x I; specialize (M x I); unfold ltb; destruct (Rlt_dec _ _); try reflexivity; lra.
  - cbn [polar_raises forallb]. rewrite Rabs_right by lra. unfold ltb. destruct (Rlt_dec _ _); [lra|reflexivity].
  - unfold from_pole. lra.
Qed.
Print Assumptions C61_polar_default_refuted.

(** the hypotheses are met *)
Example C61_nonvacuous :
  let f := FLD (CAX Phi UDeg (Arr [0; 90; 180; 270])) (CAX Theta UDeg (Arr [0; 30; 180])) true Interlaced (3, 2, 3)%nat (fun i j k => INR (i + j * k)) in
  wf f /\ around_axis (nm (get_ax f false)) /\ along_axis (nm (get_ax f (negb false))) /\ compatible UDeg URad /\
  ~ (lay f = Flat /\ negb false = false) /\ (forall i, (i < 3)%nat -> legal Theta URad (factor UDeg URad * node_at (cv (ax1 f)) i)) /\
  convertible map_mapping [Phi; Theta] [Lon; Lat] = true /\
  (let g := FLD (CAX Lon URad (Arr [0; 1])) (CAX Lat URad (Arr [- (PI / 2); 0; PI / 2])) true Scalar (1, 2, 1)%nat (fun i j k => 0) in
   Forall (fun x => - (PI / 2) <= x <= PI / 2) (nodes (cv (get_ax g true))) /\ polar_raises (crd g true) 90 North = true /\ polar_raises (crd g true) 40 North = false) /\
  make_periodic (Arr [0; 1; 2]) [10; 20; 30]%nat = (Arr [0; 1; 2; 0 + 2 * PI], [10; 20; 30; 10]%nat).
Proof.
  pose proof pi_bounds as Pb. cbv zeta. split; [unfold wf; cbn; auto|]. split; [left; reflexivity|]. split; [left; reflexivity|]. split; [right; right; left; auto|]. split; [intros (Q & _); discriminate|]. split; [|split; [reflexivity|split; [split; [|split]|]]].
  - intros i Hi. cbn [factor ax1 cv node_at legal quarter]. destruct i as [|[|[|i]]]; [| | |lia]; cbn [nth]; split; lra.
  - cbn [get_ax ax1 cv nodes]. repeat constructor; lra.
  - cbn [polar_raises crd get_ax ax1 cv nodes cell midpoints forallb]. rewrite Rabs_right by lra. unfold ltb. destruct (Rlt_dec _ _); [|lra]. destruct (Rlt_dec _ _); [reflexivity|lra].
  - cbn [polar_raises crd get_ax ax1 cv nodes cell midpoints forallb]. rewrite Rabs_right by lra. unfold ltb. destruct (Rlt_dec _ _); [|lra]. destruct (Rlt_dec _ _); [lra|reflexivity].
  - apply (C61_periodic nat [0; 1; 2] [10; 20; 30]%nat 10%nat 0); [reflexivity|reflexivity|]. cbn [last]. lra.
Qed.
Print Assumptions C61_nonvacuous.
