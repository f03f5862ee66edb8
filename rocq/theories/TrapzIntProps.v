(** C67, continued: the sum of trapezoids is an integral. *)
From Coq Require Import Reals Lra List.
From Coquelicot Require Import Coquelicot.
From Verif Require Import TrapzModel FldProofs LayoutProps TransProps ArithProps ReduceProps TrapzProps.
From Coq Require Import ZArith.
Open Scope R_scope.

(** ** specification *)
(** the function [g] joins the samples by straight lines *)
Fixpoint joins (g : R -> R) (xs ys : list R) : Prop :=
  match xs, ys with
  | x0 :: ((x1 :: _) as xs'), y0 :: ((y1 :: _) as ys') =>
      (forall t, (x0 <= t <= x1)%R -> g t = (y0 + (y1 - y0) * (t - x0) / (x1 - x0))%R) /\ joins g xs' ys'
  | _, _ => True
  end.

(** ** theorems *)
(** On increasing places the sum is the integral of the function that joins the samples by straight lines. *)
Lemma one_trapezoid x0 x1 y0 y1 : (x0 < x1)%R -> is_RInt (fun t => y0 + (y1 - y0) * (t - x0) / (x1 - x0))%R x0 x1 ((x1 - x0) * ((y0 + y1) / 2))%R.
Proof.
  intros H. set (G t := (y0 * t + (y1 - y0) * (t - x0) * (t - x0) / (x1 - x0) / 2)%R).
  replace ((x1 - x0) * ((y0 + y1) / 2))%R with (minus (G x1) (G x0)).
  - apply (is_RInt_derive (V := R_CompleteNormedModule) G).
    + intros x _. unfold G. auto_derive; [exact I|]. field. lra.
    + intros x _. apply (ex_derive_continuous (K := R_AbsRing) (V := R_NormedModule)). auto_derive. exact I.
  - unfold minus, plus, opp, G. cbn. field. lra.
Qed.
Theorem C67_integral : forall xs ys g, length xs = length ys -> increasing xs -> joins g xs ys ->
  is_RInt g (hd 0%R xs) (last xs 0%R) (trapezoids xs ys).
Proof.
  induction xs as [|x0 [|x1 xs] IH]; intros ys g L I J.
  - destruct ys; [|discriminate]. apply (is_RInt_point (V := R_NormedModule)).
  - destruct ys as [|y0 [|y1 ys]]; try discriminate. apply (is_RInt_point (V := R_NormedModule)).
  - destruct ys as [|y0 [|y1 ys]]; try discriminate. destruct I as (I0 & I). destruct J as (J0 & J).
    assert (K := IH (y1 :: ys) g ltac:(injection L as L; cbn [length]; congruence) I J). change (hd 0%R (x0 :: x1 :: xs)) with x0. change (last (x0 :: x1 :: xs) 0%R) with (last (x1 :: xs) 0%R).
    change (trapezoids (x0 :: x1 :: xs) (y0 :: y1 :: ys)) with (plus ((x1 - x0) * ((y0 + y1) / 2))%R (trapezoids (x1 :: xs) (y1 :: ys))).
    apply (is_RInt_Chasles (V := R_NormedModule) g x0 x1); [|exact K]. apply (is_RInt_ext (V := R_NormedModule) (fun t => y0 + (y1 - y0) * (t - x0) / (x1 - x0))%R); [|apply one_trapezoid; exact I0].
    intros t Ht. rewrite Rmin_left, Rmax_right in Ht by lra. symmetry. apply J0. lra.
Qed.
Print Assumptions C67_integral.

(** So along increasing places every value of [trapz] is that integral of the values along the axis. *)
Theorem C67_trapz_integral : forall (f : fld R R) before ax after axis n,
  readable f n -> sshape f = sshape_of (before ++ ax :: after) -> (before ++ after)%list <> nil -> axis_ok f before after axis -> increasing (snd ax) ->
  (f_vec f = false -> prod (sshape_of (before ++ after)) <> 1%Z) ->
  (f_vec f = true -> layout_of f = LInter -> ~ ambiguous (sshape_of (before ++ after)) n) ->
  exists h, trapz (before ++ ax :: after) f axis = IFld h /\ f_crds h = (before ++ after)%list /\
    forall p q c, in_shape (sshape_of before) p -> in_shape (sshape_of after) q -> (0 <= c < n)%Z ->
      exists vs v, along f c p q (length (snd ax)) vs /\ val h c (p ++ q) v /\
        forall g, joins g (snd ax) vs -> is_RInt g (hd 0%R (snd ax)) (last (snd ax) 0%R) v.
Proof.
  intros f before ax after axis n Rf Sf Hne Hax Hi Hs Am. destruct (C67_trapz f before ax after axis n Rf Sf Hne Hax Hs Am) as (h & H1 & H2 & _ & _ & H3).
  exists h. split; [exact H1|]. split; [exact H2|]. intros p q c Ip Iq Ic. destruct (H3 p q c Ip Iq Ic) as (vs & A & V). exists vs, (trapezoids (snd ax) vs). split; [exact A|]. split; [exact V|].
  intros g J. apply C67_integral; [|exact Hi|exact J]. symmetry. apply A.
Qed.
Print Assumptions C67_trapz_integral.

(** ** samples that meet the hypotheses *)
Example C67_integral_ex : increasing (0 :: 1 :: 2 :: nil)%R /\ joins (fun t => 5 + 2 * t)%R (0 :: 1 :: 2 :: nil)%R (5 :: 7 :: 9 :: nil)%R /\ is_RInt (fun t => 5 + 2 * t)%R 0 2 14.
Proof.
  split; [cbn; lra|]. assert (J : joins (fun t => 5 + 2 * t)%R (0 :: 1 :: 2 :: nil)%R (5 :: 7 :: 9 :: nil)%R) by (cbn; split; [intros; lra|split; [intros; lra|exact I]]). split; [exact J|].
  replace 14%R with (trapezoids (0 :: 1 :: 2 :: nil)%R (5 :: 7 :: 9 :: nil)%R) by (cbn; lra). apply (C67_integral (0 :: 1 :: 2 :: nil)%R (5 :: 7 :: 9 :: nil)%R); [reflexivity|cbn; lra|exact J].
Qed.
