From Coq Require Import List ZArith Bool Arith Lia ZifyBool.
From Verif Require Import EvalModel EvalSpec.
Import ListNotations.
Local Open Scope Z_scope.

(** ** no double underscore *)
Fixpoint ndd (p : bool) (s : text) : bool :=
  match s with
  | [] => true
  | c :: s' => negb (p && (c =? US)) && ndd (c =? US) s'
  end.
Fixpoint lastus (p : bool) (s : text) : bool :=
  match s with
  | [] => p
  | c :: s' => lastus (c =? US) s'
  end.
Lemma ndd_app p a b : ndd p (a ++ b) = (ndd p a && ndd (lastus p a) b)%bool.
Proof.
  revert p. induction a as [|c a IH]; intros p; cbn [app ndd lastus]; [reflexivity|].
  rewrite IH. destruct (negb _), (ndd (c =? US) a); reflexivity.
Qed.
Lemma ndd_false p s : ndd p s = true -> ndd false s = true.
Proof.
  destruct s as [|c s]; cbn [ndd]; [auto|]. intros H. apply andb_true_iff in H as [_ H].
  rewrite H. reflexivity.
Qed.
Lemma ndd_dunder s : ndd false s = true <-> ~ has_dunder s.
Proof.
  split.
  - intros H (a & b & ->). rewrite ndd_app in H. apply andb_true_iff in H as [_ H].
    cbn [ndd] in H. change (US =? US) with true in H. cbn [andb negb] in H.
    rewrite andb_false_r in H. discriminate.
  - induction s as [|c s IH]; intros H; [reflexivity|]. cbn [ndd andb negb].
    assert (N : ndd false s = true).
    { apply IH. intros (a & b & E). apply H. exists (c :: a), b. rewrite E. reflexivity. }
    destruct (Z.eqb_spec c US) as [->|]; [|exact N].
    destruct s as [|d s]; [reflexivity|]. cbn [ndd andb] in *.
    destruct (Z.eqb_spec d US) as [->|]; [|exact N].
    exfalso. apply H. exists [], s. reflexivity.
Qed.

Lemma strip2_cc c d r :
  strip2 (c :: d :: r) = if (c =? US) && (d =? US) then strip2 r else c :: strip2 (d :: r).
Proof. reflexivity. Qed.
Lemma ndd_cons p c s : ndd p (c :: s) = (negb (p && (c =? US)) && ndd (c =? US) s)%bool.
Proof. reflexivity. Qed.

Lemma strip2_ndd s : ndd false (strip2 s) = true.
Proof.
  enough (H : ndd false (strip2 s) = true /\ forall c s', s = c :: s' -> (c =? US) = false ->
              ndd true (strip2 s) = true) by apply H.
  induction s as [s IH] using (well_founded_induction
    (Wf_nat.well_founded_ltof _ (fun s : text => length s))).
  unfold Wf_nat.ltof in IH. destruct s as [|c [|d r]].
  - split; [reflexivity|]. discriminate.
  - cbn [strip2 ndd]. split; [destruct (c =? US); reflexivity|].
    intros c' s' [= <- <-] ->. reflexivity.
  - rewrite strip2_cc. destruct ((c =? US) && (d =? US))%bool eqn:E.
    + split; [apply IH; cbn [length]; lia|]. intros c' s' [= <- _] N. rewrite N in E. discriminate.
    + destruct (IH (d :: r) ltac:(cbn [length]; lia)) as [I1 I2].
      assert (K : ndd (c =? US) (strip2 (d :: r)) = true).
      { destruct (c =? US); [|exact I1]. apply (I2 d r eq_refl). exact E. }
      rewrite !ndd_cons, K. split; [destruct (c =? US); reflexivity|].
      intros c' s' [= <- _] ->. reflexivity.
Qed.

Definition und (s : text) : Prop := ~ has_dunder s.

Section Classes.
Context (word isspace : Z -> bool).
Notation toks := (toks word).
Notation called := (called isspace).
Notation vars_ne := (vars_ne isspace).
Notation vars_np := (vars_np isspace).
Notation syms_ne := (syms_ne isspace).
Notation syms_np := (syms_np isspace).
Notation funcs := (funcs isspace).
Notation fsyms := (fsyms isspace).

Lemma untoks_toks s : untoks (toks s) = s.
Proof.
  induction s as [|c s IH]; [reflexivity|]. cbn [EvalModel.toks]. destruct (word c).
  - destruct (toks s) as [|[r|d] ts]; cbn [untoks flat_map untok app] in *; rewrite <- IH; reflexivity.
  - cbn [untoks flat_map untok app] in *. unfold untoks in IH. rewrite IH. reflexivity.
Qed.
Lemma untoks_cons t ts : untoks (t :: ts) = untok t ++ untoks ts.
Proof. reflexivity. Qed.
Lemma untoks_app a b : untoks (a ++ b) = untoks a ++ untoks b.
Proof. unfold untoks. apply flat_map_app. Qed.

Lemma lastus_app p a b : lastus p (a ++ b) = lastus (lastus p a) b.
Proof. revert p. induction a as [|c a IH]; intros p; cbn [app lastus]; auto. Qed.
Lemma ndd_salt p s : ndd p (SALT ++ s) = ndd false s.
Proof. cbn. rewrite andb_false_r. reflexivity. Qed.
Lemma lastus_salt p r : lastus p (SALT ++ r) = lastus false r.
Proof. reflexivity. Qed.
Lemma lastus_ne p q r : r <> [] -> lastus p r = lastus q r.
Proof. destruct r; [congruence|reflexivity]. Qed.

(** a boolean implication: dropping the context keeps a text free of pairs *)
Lemma ndd_weak p q s : implb q p = true -> ndd p s = true -> ndd q s = true.
Proof.
  destruct q; cbn [implb]; intros H; [subst; auto|]. intros K. eapply ndd_false; eauto.
Qed.
Lemma lastus_weak p q r : implb q p = true -> implb (lastus q r) (lastus p r) = true.
Proof. destruct r; cbn [lastus]; [auto|]. intros _. apply implb_same. Qed.

Lemma vars_ne_ndd ts : forall p q, implb q p = true ->
  ndd p (untoks ts) = true -> ndd q (vars_ne ts) = true.
Proof.
  induction ts as [|[r|c] ts IH]; intros p q Hq H; [reflexivity| |];
    rewrite untoks_cons, ndd_app in H; apply andb_true_iff in H as [H1 H2];
    cbn [EvalModel.vars_ne untok] in *.
  - destruct (_ && _)%bool.
    + rewrite <- app_assoc, ndd_salt, ndd_app. apply andb_true_iff.
      split; [eapply ndd_false; eauto|]. eapply IH; [|exact H2]. apply lastus_weak; reflexivity.
    + rewrite ndd_app. apply andb_true_iff. split; [eapply ndd_weak; eauto|].
      eapply IH; [|exact H2]. apply lastus_weak; auto.
  - cbn [ndd]. apply andb_true_iff. split.
    + cbn [ndd] in H1. rewrite andb_true_r in H1. destruct p, q, (c =? US); try discriminate; auto.
    + eapply IH; [|exact H2]. cbn [lastus]. apply implb_same.
Qed.

Lemma ndd_cons_weak p q c s s' : implb q p = true ->
  ndd p (c :: s) = true -> (ndd (c =? US) s = true -> ndd (c =? US) s' = true) ->
  ndd q (c :: s') = true.
Proof.
  intros Hq H K. rewrite ndd_cons in *. apply andb_true_iff in H as [H1 H2].
  rewrite (K H2), andb_true_r. destruct p, q, (c =? US); try discriminate; auto.
Qed.
Lemma ndd_app_weak p q r s s' : implb q p = true ->
  ndd p (r ++ s) = true ->
  (forall q', implb q' (lastus p r) = true -> ndd (lastus p r) s = true -> ndd q' s' = true) ->
  ndd q (r ++ s') = true.
Proof.
  intros Hq H K. rewrite ndd_app in *. apply andb_true_iff in H as [H1 H2].
  apply andb_true_iff. split; [eapply ndd_weak; eauto|]. apply K; auto. apply lastus_weak; auto.
Qed.

Lemma vars_np_ndd ts : forall p q, implb q p = true ->
  ndd p (untoks ts) = true -> ndd q (vars_np ts) = true.
Proof.
  induction ts as [ts IH] using (well_founded_induction
    (Wf_nat.well_founded_ltof _ (fun s : list tok => length s))).
  unfold Wf_nat.ltof in IH. intros p q Hq H. destruct ts as [|[r|c] ts]; [reflexivity| |];
    rewrite untoks_cons in H; cbn [EvalModel.vars_np untok] in *.
  - destruct (_ && _)%bool.
    + rewrite <- app_assoc, ndd_salt. eapply ndd_app_weak; [|exact H|]; [reflexivity|].
      intros q' Hq' H'. eapply IH; eauto. 
    + eapply ndd_app_weak; [exact Hq|exact H|]. intros q' Hq' H'. eapply IH; eauto.
  - assert (P : ndd q (c :: vars_np ts) = true).
    { eapply ndd_cons_weak; [exact Hq|exact H|]. intros H'. eapply IH; [|apply implb_same|exact H'].
      cbn [length]; lia. }
    destruct ts as [|[r|d] ts']; [exact P| |exact P]. destruct (_ && _)%bool; [|exact P].
    rewrite untoks_cons in H. cbn [untok app] in H.
    assert (Q : forall q0, implb q0 p = true -> ndd q0 ((c :: r) ++ vars_np ts') = true).
    { intros q0 Hq0. eapply (ndd_app_weak p q0 (c :: r)); [exact Hq0|exact H|].
      intros q' Hq' H'. eapply IH; eauto. cbn [length]; lia. }
    destruct (c =? SQ); [apply Q; auto|]. rewrite <- app_assoc, ndd_salt. apply Q. destruct p; reflexivity.
Qed.

Lemma untoks_skipn_ndd k ts p : ndd p (untoks ts) = true -> exists p', ndd p' (untoks (skipn k ts)) = true.
Proof.
  revert ts p. induction k as [|k IH]; intros ts p H; [exists p; exact H|].
  destruct ts as [|t ts]; [exists p; exact H|]. cbn [skipn].
  rewrite untoks_cons, ndd_app in H. apply andb_true_iff in H as [_ H]. eapply IH; eauto.
Qed.
Lemma funcs_skip k ts : funcs k ts = funcs 0 (skipn k ts).
Proof.
  revert k. induction ts as [|t ts IH]; intros k; [destruct k; reflexivity|].
  destruct k as [|k]; [reflexivity|]. cbn [EvalModel.funcs skipn]. apply IH.
Qed.
Lemma fsyms_skip k ts : fsyms k ts = fsyms 0 (skipn k ts).
Proof.
  revert k. induction ts as [|t ts IH]; intros k; [destruct k; reflexivity|].
  destruct k as [|k]; [reflexivity|]. cbn [EvalModel.fsyms skipn]. apply IH.
Qed.

Lemma funcs_ndd ts : forall p q, implb q p = true ->
  ndd p (untoks ts) = true -> ndd q (funcs 0 ts) = true.
Proof.
  induction ts as [ts IH] using (well_founded_induction
    (Wf_nat.well_founded_ltof _ (fun s : list tok => length s))).
  unfold Wf_nat.ltof in IH. intros p q Hq H. destruct ts as [|[r|c] ts]; [reflexivity| |];
    rewrite untoks_cons in H; cbn [EvalModel.funcs untok] in *.
  - destruct (_ && _)%bool.
    + rewrite ndd_salt. eapply (ndd_app_weak p); [destruct p; reflexivity|exact H|].
      intros q' Hq' H'. rewrite ndd_cons. change (LPAREN =? US) with false.
      rewrite andb_false_r. cbn [negb andb]. rewrite funcs_skip.
      destruct (untoks_skipn_ndd (spaces isspace ts) ts _ H') as (p' & Hp').
      eapply IH; [| |exact Hp']; [rewrite skipn_length; cbn [length]; lia|destruct p'; reflexivity].
    + eapply ndd_app_weak; [exact Hq|exact H|]. intros q' Hq' H'. eapply IH; eauto.
  - assert (P : ndd q (c :: funcs 0 ts) = true).
    { eapply ndd_cons_weak; [exact Hq|exact H|]. intros H'. eapply IH; [|apply implb_same|exact H'].
      cbn [length]; lia. }
    destruct ts as [|[r|d] ts']; [exact P| |exact P]. destruct (_ && _)%bool; [|exact P].
    rewrite untoks_cons in H. cbn [untok app] in H.
    rewrite ndd_salt. eapply (ndd_app_weak p false (c :: r)); [destruct p; reflexivity|exact H|].
    intros q' Hq' H'. rewrite ndd_cons. change (LPAREN =? US) with false.
    rewrite andb_false_r. cbn [negb andb]. rewrite funcs_skip. cbn [skipn].
    destruct (untoks_skipn_ndd (spaces isspace ts') ts' _ H') as (p' & Hp').
    eapply IH; [| |exact Hp']; [rewrite skipn_length; cbn [length]; lia|destruct p'; reflexivity].
Qed.

(** the symbols are parts of the text *)
Definition infix (n t : text) : Prop := exists a b, t = a ++ n ++ b.
Lemma infix_und n t : infix n t -> und t -> und n.
Proof.
  intros (a & b & ->) H (x & y & ->). apply H. exists (a ++ x), (y ++ b).
  rewrite <- !app_assoc. reflexivity.
Qed.
Lemma infix_tail n t s : infix n s -> infix n (t ++ s).
Proof. intros (a & b & ->). exists (t ++ a), b. rewrite <- !app_assoc. reflexivity. Qed.
Lemma infix_head n s : infix n (n ++ s).
Proof. exists [], s. reflexivity. Qed.

Lemma syms_ne_infix ts n : In n (syms_ne ts) -> infix n (untoks ts).
Proof.
  induction ts as [|[r|c] ts IH]; [intros []| |]; rewrite untoks_cons; cbn [EvalModel.syms_ne untok].
  - destruct (_ && _)%bool.
    + intros [<-|H]; [apply infix_head|apply infix_tail; auto].
    + intros H. apply infix_tail; auto.
  - intros H. apply infix_tail; auto.
Qed.
Lemma syms_np_infix ts n : In n (syms_np ts) -> infix n (untoks ts).
Proof.
  induction ts as [ts IH] using (well_founded_induction
    (Wf_nat.well_founded_ltof _ (fun s : list tok => length s))).
  unfold Wf_nat.ltof in IH. destruct ts as [|[r|c] ts]; [intros []| |];
    rewrite untoks_cons; cbn [EvalModel.syms_np untok].
  - destruct (_ && _)%bool.
    + intros [<-|H]; [apply infix_head|apply infix_tail; apply IH; auto].
    + intros H. apply infix_tail; apply IH; auto.
  - destruct ts as [|[r|d] ts']; try (intros H; apply infix_tail; apply IH; auto; fail).
    destruct (_ && _)%bool; [|intros H; apply infix_tail; apply IH; auto].
    rewrite untoks_cons. cbn [untok]. rewrite app_assoc. destruct (c =? SQ).
    + intros H. apply infix_tail; apply IH; auto. cbn [length]; lia.
    + intros [<-|H]; [apply (infix_head (c :: r))|apply infix_tail; apply IH; auto]. cbn [length]; lia.
Qed.
Lemma infix_skipn n k ts : infix n (untoks (skipn k ts)) -> infix n (untoks ts).
Proof.
  intros H. rewrite <- (firstn_skipn k ts) at 1. rewrite untoks_app. apply infix_tail; auto.
Qed.
Lemma fsyms_infix ts n : In n (fsyms 0 ts) -> infix n (untoks ts).
Proof.
  induction ts as [ts IH] using (well_founded_induction
    (Wf_nat.well_founded_ltof _ (fun s : list tok => length s))).
  unfold Wf_nat.ltof in IH. destruct ts as [|[r|c] ts]; [intros []| |];
    rewrite untoks_cons; cbn [EvalModel.fsyms untok].
  - destruct (_ && _)%bool.
    + intros [<-|H]; [apply infix_head|]. rewrite fsyms_skip in H. apply infix_tail.
      eapply infix_skipn. apply IH; [|exact H]. rewrite skipn_length; cbn [length]; lia.
    + intros H. apply infix_tail; apply IH; auto.
  - destruct ts as [|[r|d] ts']; try (intros H; apply infix_tail; apply IH; auto; fail).
    destruct (_ && _)%bool; [|intros H; apply infix_tail; apply IH; auto].
    intros [<-|H].
    + rewrite untoks_cons. cbn [untok]. rewrite app_assoc. apply (infix_head (c :: r)).
    + apply infix_tail. rewrite fsyms_skip in H.
      eapply infix_skipn. apply IH; [|exact H]. rewrite skipn_length; cbn [length]; lia.
Qed.

Lemma strip2_und s : und (strip2 s).
Proof. apply ndd_dunder. apply strip2_ndd. Qed.
Lemma ne_text_und s : und (ne_text word isspace s).
Proof.
  apply ndd_dunder. unfold ne_text. eapply vars_ne_ndd; [|rewrite untoks_toks; apply strip2_ndd]. reflexivity.
Qed.
Lemma np_vars_und s : und (np_vars_text word isspace s).
Proof.
  apply ndd_dunder. unfold np_vars_text.
  eapply vars_np_ndd; [|rewrite untoks_toks; apply strip2_ndd]. reflexivity.
Qed.
Lemma np_text_und s : und (np_text word isspace s).
Proof.
  apply ndd_dunder. unfold np_text.
  eapply funcs_ndd; [|rewrite untoks_toks; apply ndd_dunder; apply np_vars_und]. reflexivity.
Qed.

Lemma lookups_names grid syms : forall strict seen e,
  In e (fst (lookups grid strict syms seen)) -> exists n, e = GetField n /\ In n syms.
Proof.
  induction syms as [|s syms IH]; intros strict seen e; cbn [lookups]; [intros []|].
  destruct (memb s seen).
  { intros H. apply IH in H as (n & -> & H). exists n. split; [auto|right; auto]. }
  assert (K : forall (x : list effect * option exc) seen', x = lookups grid false syms seen' ->
    In e (fst (let (es, r) := x in (GetField s :: es, r))) ->
    exists n, e = GetField n /\ In n (s :: syms)).
  { intros [es r] seen' E [<-|H]; [exists s; split; [auto|left; auto]|].
    destruct (IH false seen' e) as (n & -> & Hn); [rewrite <- E; exact H|].
    exists n. split; [auto|right; auto]. }
  destruct (grid s) as [| |x].
  - eapply K. reflexivity.
  - destruct strict; [|eapply K; reflexivity]. intros [<-|[]]. exists s. split; [auto|left; auto].
  - intros [<-|[]]. exists s. split; [auto|left; auto].
Qed.

Lemma numexpr_und has_ne grid ne s e :
  In e (snd (evaluate_numexpr word isspace has_ne grid ne s)) -> und (effect_text e).
Proof.
  unfold evaluate_numexpr. destruct has_ne; cbn [negb]; [|intros []].
  destruct (lookups _ _ _ _) as [es r] eqn:L.
  assert (K : In e es -> und (effect_text e)).
  { intros H. destruct (lookups_names grid (syms_ne (toks (strip2 s))) true [] e) as (n & -> & Hn).
    - rewrite L. exact H.
    - cbn [effect_text]. apply syms_ne_infix in Hn. rewrite untoks_toks in Hn.
      eapply infix_und; [exact Hn|apply strip2_und]. }
  destruct r; cbn [snd]; [exact K|]. intros H. apply in_app_or in H as [H|[<-|[]]]; [auto|].
  apply ne_text_und.
Qed.
Lemma numpy_und enabled grid ev s e :
  In e (snd (evaluate_numpy word isspace enabled grid ev s)) -> und (effect_text e).
Proof.
  unfold evaluate_numpy. destruct enabled; cbn [negb]; [|intros []].
  destruct (lookups _ _ _ _) as [es r] eqn:L.
  assert (K : In e es -> und (effect_text e)).
  { intros H. destruct (lookups_names grid (syms_np (toks (strip2 s))) false [] e) as (n & -> & Hn).
    - rewrite L. exact H.
    - cbn [effect_text]. apply syms_np_infix in Hn. rewrite untoks_toks in Hn.
      eapply infix_und; [exact Hn|apply strip2_und]. }
  destruct r; cbn [snd]; [exact K|]. intros H. apply in_app_or in H as [H|H]; [auto|].
  apply in_app_or in H as [H|[<-|[]]].
  - apply in_map_iff in H as (n & <- & H). cbn [effect_text]. apply fsyms_infix in H.
    rewrite untoks_toks in H. eapply infix_und; [exact H|apply np_vars_und].
  - apply np_text_und.
Qed.
Lemma evaluate_und enabled has_ne try_ne grid ne ev s e :
  In e (snd (evaluate word isspace enabled has_ne try_ne grid ne ev s)) -> und (effect_text e).
Proof.
  unfold evaluate. destruct enabled; cbn [negb]; [|intros []].
  assert (K : forall es, (In e es -> und (effect_text e)) ->
    In e (snd (let (o, es') := evaluate_numpy word isspace true grid ev s in (o, es ++ es'))) ->
    und (effect_text e)).
  { intros es He. destruct (evaluate_numpy _ _ _ _ _ _) as [o es'] eqn:E. cbn [snd]. intros H.
    apply in_app_or in H as [H|H]; [auto|]. eapply (numpy_und true grid ev s). rewrite E. exact H. }
  destruct try_ne.
  - pose proof (numexpr_und has_ne grid ne s e) as N.
    destruct (evaluate_numexpr _ _ _ _ _ _) as [[|[| |]] es];
      first [exact N | apply K; exact N].
  - apply K. intros [].
Qed.

(** ** words *)
Context (CL : classes_ok word isspace).

Fixpoint proper (prev : bool) (ts : list tok) : Prop :=
  match ts with
  | [] => True
  | W r :: ts' => prev = false /\ r <> [] /\ Forall (fun c => word c = true) r /\ proper true ts'
  | C c :: ts' => word c = false /\ proper false ts'
  end.

Lemma proper_weak b ts : proper true ts -> proper b ts.
Proof. destruct ts as [|[r|c] ts]; cbn [proper]; auto. intros [H _]. discriminate. Qed.

Lemma toks_proper s : proper false (toks s) /\
  (forall c s', s = c :: s' -> word c = false -> proper true (toks s)).
Proof.
  induction s as [|c s [I1 I2]]; [split; [exact I|discriminate]|].
  cbn [EvalModel.toks]. destruct (word c) eqn:Wc.
  - split; [|intros c' s' [= <- _]; congruence].
    destruct (toks s) as [|[r|d] ts] eqn:E.
    + cbn [proper]. split; [auto|]. split; [discriminate|]. split; [auto|exact I].
    + cbn [proper] in *. destruct I1 as (_ & H1 & H2 & H3). split; [auto|]. split; [discriminate|].
      split; [constructor; auto|exact H3].
    + cbn [proper] in *. split; [auto|]. split; [discriminate|]. split; [auto|]. exact I1.
  - split; [cbn [proper]; auto|]. intros c' s' _ _. cbn [proper]. auto.
Qed.

Lemma toks_untoks ts : proper false ts -> toks (untoks ts) = ts.
Proof.
  enough (H : forall b, proper b ts -> toks (untoks ts) = ts) by eauto.
  induction ts as [|[r|c] ts IH]; intros b H; [reflexivity| |]; rewrite untoks_cons; cbn [untok].
  - cbn [proper] in H. destruct H as (_ & Hne & Hw & Hp). specialize (IH true Hp).
    clear -IH Hne Hw Hp. induction r as [|c r IHr]; [congruence|].
    inversion Hw as [|? ? W1 W2]; subst. cbn [app EvalModel.toks]. rewrite W1.
    destruct r as [|d r].
    + cbn [app]. rewrite IH. destruct ts as [|[r|d] ts]; auto.
      cbn [proper] in Hp. destruct Hp as [Hp _]. discriminate.
    + rewrite IHr; [reflexivity|discriminate|exact W2].
  - cbn [proper] in H. destruct H as [Hc Hp]. cbn [app EvalModel.toks]. rewrite Hc, (IH false Hp). reflexivity.
Qed.

Lemma not_ends_cons c a : ~ ends_in_word word (c :: a) -> ~ ends_in_word word a.
Proof. intros H (a' & d & -> & Hd). apply H. exists (c :: a'), d. auto. Qed.

Lemma proper_app a : forall b ts,
  proper b (toks a) -> ~ ends_in_word word a -> (a = [] -> proper b ts) -> proper false ts ->
  proper b (toks a ++ ts).
Proof.
  assert (K : forall us b ts, proper b us -> ~ ends_in_word word (untoks us) -> (us = [] -> proper b ts) ->
     proper false ts -> proper b (us ++ ts)).
  { induction us as [|[r|c] us IH]; intros b ts Hp Hn Hb Hts; cbn [app].
    - apply Hb; reflexivity.
    - cbn [proper] in *. destruct Hp as (H1 & H2 & H3 & H4). split; [auto|]. split; [auto|]. split; [auto|].
      rewrite untoks_cons in Hn. cbn [untok] in Hn.
      assert (Hus : us <> []).
      { intros ->. apply Hn. cbn [untoks flat_map]. rewrite app_nil_r.
        destruct (rev r) as [|x y] eqn:E.
        - exfalso. apply H2. rewrite <- (rev_involutive r), E. reflexivity.
        - exists (rev y), x. assert (Er : r = rev y ++ [x]) by (rewrite <- (rev_involutive r), E; reflexivity).
          split; [exact Er|]. rewrite Er in H3. apply Forall_app in H3 as [_ H3]. inversion H3; auto. }
      apply IH; auto; [|congruence].
      intros (a' & d & E & Hd). apply Hn. exists (r ++ a'), d. rewrite E, app_assoc. auto.
    - cbn [proper] in *. destruct Hp as [H1 H2]. split; [auto|]. rewrite untoks_cons in Hn. cbn [untok app] in Hn.
      apply IH; auto. eapply not_ends_cons; eauto. }
  intros b ts Hp Hn Hb Hts. apply K; auto; [rewrite untoks_toks; auto|].
  intros E. apply Hb. rewrite <- (untoks_toks a), E. reflexivity.
Qed.

Lemma toks_whole t a r b : whole_word word t a r b -> toks t = toks a ++ W r :: toks b.
Proof.
  intros (-> & Hr & Hw & Ha & Hb).
  assert (P : proper true (toks b)).
  { destruct b as [|c b]; [exact I|]. eapply (proj2 (toks_proper (c :: b))); [reflexivity|].
    destruct (word c) eqn:E; auto. exfalso. apply Hb. exists c, b. auto. }
  transitivity (toks (untoks (toks a ++ W r :: toks b))).
  - f_equal. rewrite untoks_app, untoks_cons. cbn [untok]. rewrite !untoks_toks. reflexivity.
  - apply toks_untoks. apply proper_app; auto.
    + apply (proj1 (toks_proper a)).
    + intros _. cbn [proper]. auto.
    + cbn [proper]. auto.
Qed.

Fixpoint ctx (b : bool) (ts : list tok) : bool :=
  match ts with
  | [] => b
  | W _ :: ts' => ctx true ts'
  | C _ :: ts' => ctx false ts'
  end.
Lemma proper_app_iff ta ts : forall b, proper b (ta ++ ts) <-> proper b ta /\ proper (ctx b ta) ts.
Proof.
  induction ta as [|[r|c] ta IH]; intros b; cbn [app proper ctx]; [tauto| |]; rewrite IH; tauto.
Qed.
Lemma ctx_app a b : forall x, ctx x (a ++ b) = ctx (ctx x a) b.
Proof. induction a as [|[r|c] a IH]; intros x; cbn [app ctx]; auto. Qed.

Lemma proper_ends ta : proper false ta -> ctx false ta = false -> ~ ends_in_word word (untoks ta).
Proof.
  intros Hp Hc (a & d & E & Hd). destruct (rev ta) as [|t tb] eqn:Er.
  - assert (ta = []) by (rewrite <- (rev_involutive ta), Er; reflexivity). subst ta.
    cbn in E. destruct a; discriminate.
  - assert (Et : ta = rev tb ++ [t]) by (rewrite <- (rev_involutive ta), Er; reflexivity).
    subst ta. rewrite ctx_app in Hc. destruct t as [r|c]; cbn [ctx] in Hc; [discriminate|].
    apply proper_app_iff in Hp as [_ Hp]. cbn [proper] in Hp. destruct Hp as [Hw _].
    rewrite untoks_app in E. cbn [untoks flat_map untok app] in E.
    apply app_inj_tail in E as [_ ->]. congruence.
Qed.
Lemma proper_starts ts : proper true ts -> ~ starts_with_word word (untoks ts).
Proof.
  intros Hp (c & b & E & Hc). destruct ts as [|[r|d] ts]; cbn [proper] in Hp.
  - discriminate.
  - destruct Hp as [Hp _]. discriminate.
  - rewrite untoks_cons in E. cbn [untok app] in E. injection E as -> _. destruct Hp as [Hp _]. congruence.
Qed.

Lemma whole_toks t ta r tb : toks t = ta ++ W r :: tb -> whole_word word t (untoks ta) r (untoks tb).
Proof.
  intros E. pose proof (proj1 (toks_proper t)) as P. rewrite E in P.
  apply proper_app_iff in P as [P1 P2]. cbn [proper] in P2. destruct P2 as (Hc & Hr & Hw & P2).
  split; [|split; [exact Hr|split; [exact Hw|split]]].
  - rewrite <- (untoks_toks t), E, untoks_app, untoks_cons. reflexivity.
  - apply proper_ends; auto.
  - apply proper_starts; auto.
Qed.

(** ** calls *)
Lemma called_call ts b : proper b ts -> (called ts = true <-> is_call isspace (untoks ts)).
Proof.
  revert b. induction ts as [|[r|c] ts IH]; intros b H.
  - split; [discriminate|]. intros (w & b' & E & _). destruct w; discriminate.
  - cbn [EvalModel.called]. split; [discriminate|]. intros (w & b' & E & Hw). exfalso.
    cbn [proper] in H. destruct H as (_ & Hr & Hrw & _). rewrite untoks_cons in E. cbn [untok] in E.
    destruct r as [|x r]; [congruence|]. inversion Hrw as [|? ? Wx _]; subst.
    destruct w as [|y w]; cbn [app] in E; injection E as Ex _; subst x.
    + rewrite (cl_paren _ _ CL) in Wx. discriminate.
    + inversion Hw as [|? ? Sx _]; subst. rewrite (cl_space _ _ CL _ Sx) in Wx. discriminate.
  - cbn [proper] in H. destruct H as [_ H]. cbn [EvalModel.called]. rewrite untoks_cons. cbn [untok app].
    destruct (isspace c) eqn:S.
    + rewrite (IH _ H). split; intros (w & b' & E & Hw).
      * exists (c :: w), b'. split; [rewrite E; reflexivity|constructor; auto].
      * destruct w as [|y w]; cbn [app] in E; injection E as Ec E; subst c.
        -- rewrite (cl_paren_space _ _ CL) in S. discriminate.
        -- exists w, b'. split; [exact E|]. inversion Hw; auto.
    + split.
      * intros E. apply Z.eqb_eq in E. subst c. exists [], (untoks ts). split; [reflexivity|constructor].
      * intros (w & b' & E & Hw). destruct w as [|y w]; cbn [app] in E; injection E as Ec E; subst c.
        -- apply Z.eqb_refl.
        -- inversion Hw; congruence.
Qed.

Lemma syms_ne_in ts n : In n (syms_ne ts) <->
  exists ta tb, ts = ta ++ W n :: tb /\ ident n = true /\ called tb = false.
Proof.
  induction ts as [|[r|c] ts IH]; cbn [EvalModel.syms_ne].
  - split; [intros []|]. intros (ta & tb & E & _). destruct ta; discriminate.
  - split.
    + intros H. destruct (ident r && negb (called ts))%bool eqn:E.
      * apply andb_true_iff in E as [E1 E2]. apply negb_true_iff in E2. destruct H as [<-|H].
        -- exists [], ts. auto.
        -- apply IH in H as (ta & tb & -> & H). exists (W r :: ta), tb. auto.
      * apply IH in H as (ta & tb & -> & H). exists (W r :: ta), tb. auto.
    + intros ([|t ta] & tb & E & Hi & Hc); cbn [app] in E.
      * injection E as -> ->. rewrite Hi, Hc. left; auto.
      * injection E as _ E. destruct (_ && _)%bool; [right|]; apply IH; eauto 6.
  - rewrite IH. split.
    + intros (ta & tb & -> & H). exists (C c :: ta), tb. auto.
    + intros ([|t ta] & tb & E & H); cbn [app] in E; [discriminate|]. injection E as _ E. eauto.
Qed.

Lemma syms_variable s n : In n (syms_ne (toks s)) <-> variable_in word isspace s n.
Proof.
  rewrite syms_ne_in. split.
  - intros (ta & tb & E & Hi & Hc). split; [exact Hi|]. exists (untoks ta), (untoks tb).
    split; [apply whole_toks; exact E|]. pose proof (proj1 (toks_proper s)) as P. rewrite E in P.
    apply proper_app_iff in P as [_ P]. cbn [proper] in P. destruct P as (_ & _ & _ & P).
    rewrite <- (called_call tb true P). congruence.
  - intros (Hi & a & b & Hw & Hc). exists (toks a), (toks b). split; [apply toks_whole; exact Hw|].
    split; [exact Hi|]. rewrite <- (untoks_toks b) in Hc.
    rewrite <- (called_call (toks b) false) in Hc by apply toks_proper. apply not_true_is_false; auto.
Qed.

(** ** texts without quotes *)
Definition qfree (ts : list tok) : Prop := forall c, In (C c) ts -> quote c = false.
Lemma qfree_cons t ts : qfree (t :: ts) -> qfree ts.
Proof. intros H c Hc. apply H. right; auto. Qed.
Lemma qfree_vars ts : qfree ts -> vars_np ts = vars_ne ts.
Proof.
  induction ts as [|[r|c] ts IH]; intros H; cbn [EvalModel.vars_np EvalModel.vars_ne]; [auto| |];
    pose proof (IH (qfree_cons _ _ H)) as E.
  - rewrite E. reflexivity.
  - rewrite (H c (or_introl eq_refl)). cbn [andb]. destruct ts as [|[r|d] ts]; rewrite E; reflexivity.
Qed.
Lemma qfree_syms ts : qfree ts -> syms_np ts = syms_ne ts.
Proof.
  induction ts as [|[r|c] ts IH]; intros H; cbn [EvalModel.syms_np EvalModel.syms_ne]; [auto| |];
    pose proof (IH (qfree_cons _ _ H)) as E.
  - rewrite E. reflexivity.
  - rewrite (H c (or_introl eq_refl)). cbn [andb]. destruct ts as [|[r|d] ts]; rewrite E; reflexivity.
Qed.
Lemma strip2_in s c : In c (strip2 s) -> In c s.
Proof.
  induction s as [s IH] using (well_founded_induction
    (Wf_nat.well_founded_ltof _ (fun s : text => length s))).
  unfold Wf_nat.ltof in IH. destruct s as [|x [|y r]]; auto. rewrite strip2_cc.
  destruct (_ && _)%bool.
  - intros H. right; right. apply IH; auto. cbn [length]; lia.
  - intros [<-|H]; [left; auto|right]. apply IH; auto.
Qed.
Lemma in_toks s c : In (C c) (toks s) -> In c s.
Proof.
  intros H. rewrite <- (untoks_toks s). apply in_flat_map. exists (C c). split; [auto|left; auto].
Qed.
Lemma no_quotes_qfree s : no_quotes s -> qfree (toks (strip2 s)).
Proof.
  intros [H1 H2] c Hc. apply in_toks, strip2_in in Hc. unfold quote.
  destruct (Z.eqb_spec c DQ) as [->|]; [contradiction|].
  destruct (Z.eqb_spec c SQ) as [->|]; [contradiction|]. reflexivity.
Qed.

(** the variable step on tokens *)
Fixpoint vt (ts : list tok) : list tok :=
  match ts with
  | [] => []
  | W r :: ts' => W (if ident r && negb (called ts') then SALT ++ r else r) :: vt ts'
  | C c :: ts' => C c :: vt ts'
  end.
Lemma vars_vt ts : vars_ne ts = untoks (vt ts).
Proof.
  induction ts as [|[r|c] ts IH]; cbn [EvalModel.vars_ne vt]; [auto| |]; rewrite untoks_cons, IH; reflexivity.
Qed.
Lemma salt_word : Forall (fun c => word c = true) SALT.
Proof. repeat constructor; apply (cl_word _ _ CL); reflexivity. Qed.
Lemma vt_proper ts : forall b, proper b ts -> proper b (vt ts).
Proof.
  induction ts as [|[r|c] ts IH]; intros b H; cbn [vt proper] in *; [auto| |].
  - destruct H as (H1 & H2 & H3 & H4). split; [auto|]. split; [destruct (_ && _)%bool; [discriminate|auto]|].
    split; [|auto]. destruct (_ && _)%bool; [|auto]. apply Forall_app. split; [apply salt_word|auto].
  - destruct H. split; auto.
Qed.
Lemma vt_called ts : called (vt ts) = called ts.
Proof.
  induction ts as [|[r|c] ts IH]; cbn [vt EvalModel.called]; [auto|auto|]. rewrite IH. reflexivity.
Qed.
Lemma vt_qfree ts : qfree ts -> qfree (vt ts).
Proof.
  induction ts as [|[r|c] ts IH]; intros H x Hx; cbn [vt] in Hx; [destruct Hx| |];
    (destruct Hx as [Hx|Hx]; [|apply (IH (qfree_cons _ _ H)); auto]); [discriminate|].
  injection Hx as <-. apply H. left; auto.
Qed.

(** the function step on tokens *)
Fixpoint ft (skip : nat) (ts : list tok) : list tok :=
  match ts with
  | [] => []
  | t :: t1 =>
      match skip with
      | S k => ft k t1
      | O => match t with
             | W r => if ident r && called t1 then W (SALT ++ r) :: C LPAREN :: ft (spaces isspace t1) t1
                      else W r :: ft O t1
             | C c => C c :: ft O t1
             end
      end
  end.
Lemma ft_skip k ts : ft k ts = ft 0 (skipn k ts).
Proof.
  revert k. induction ts as [|t ts IH]; intros k; [destruct k; reflexivity|].
  destruct k as [|k]; [reflexivity|]. cbn [ft skipn]. apply IH.
Qed.
Lemma funcs_ft ts : forall k, qfree ts -> funcs k ts = untoks (ft k ts).
Proof.
  induction ts as [|t ts IH]; intros k H; cbn [EvalModel.funcs ft]; [auto|].
  pose proof (fun k => IH k (qfree_cons _ _ H)) as E. destruct k as [|k]; [|apply E].
  destruct t as [r|c].
  - destruct (_ && _)%bool; rewrite !untoks_cons; cbn [untok]; rewrite E, <- ?app_assoc; reflexivity.
  - rewrite (H c (or_introl eq_refl)). cbn [andb]. rewrite untoks_cons. cbn [untok app].
    destruct ts as [|[r|d] ts]; rewrite E; reflexivity.
Qed.
Lemma proper_skipn k ts b : proper b ts -> called ts = true -> k = spaces isspace ts ->
  proper false (skipn k ts).
Proof.
  revert k b. induction ts as [|[r|c] ts IH]; intros k b H Hc ->; cbn [EvalModel.called] in Hc; try discriminate.
  cbn [proper spaces] in *. destruct H as [_ H]. destruct (isspace c) eqn:S; cbn [skipn].
  - eapply IH; eauto.
  - exact H.
Qed.
Lemma ft_proper ts : forall b, proper b ts -> proper b (ft 0 ts).
Proof.
  induction ts as [ts IH] using (well_founded_induction
    (Wf_nat.well_founded_ltof _ (fun s : list tok => length s))).
  unfold Wf_nat.ltof in IH. intros b H. destruct ts as [|[r|c] ts]; cbn [ft proper] in *; [auto| |].
  - destruct H as (H1 & H2 & H3 & H4). destruct (ident r && called ts)%bool eqn:E; cbn [proper].
    + apply andb_true_iff in E as [_ E]. split; [auto|]. split; [discriminate|].
      split; [apply Forall_app; split; [apply salt_word|auto]|]. split; [apply (cl_paren _ _ CL)|].
      rewrite ft_skip. apply IH; [rewrite skipn_length; cbn [length]; lia|].
      eapply proper_skipn; eauto.
    + split; [auto|]. split; [auto|]. split; [auto|]. apply IH; auto.
  - destruct H. split; auto.
Qed.

(** every word of the final tokens is salted or not an identifier *)
Definition salted (r : text) : Prop := exists r', r = SALT ++ r' /\ ident r' = true.
Lemma ft_words ts r : In (W r) (ft 0 ts) ->
  (exists r', r = SALT ++ r' /\ ident r' = true) \/
  exists ta tb, ts = ta ++ W r :: tb /\ (ident r && called tb)%bool = false.
Proof.
  induction ts as [ts IH] using (well_founded_induction
    (Wf_nat.well_founded_ltof _ (fun s : list tok => length s))).
  unfold Wf_nat.ltof in IH. destruct ts as [|[q|c] ts]; cbn [ft]; [intros []| |].
  - destruct (ident q && called ts)%bool eqn:E.
    + apply andb_true_iff in E as [E1 _]. intros [H|[H|H]].
      * left. exists q. split; [congruence|auto].
      * discriminate.
      * rewrite ft_skip in H. apply IH in H; [|rewrite skipn_length; cbn [length]; lia].
        destruct H as [H|(ta & tb & H & K)]; [auto|]. right.
        exists (W q :: firstn (spaces isspace ts) ts ++ ta), tb. split; [|auto]. cbn [app]. f_equal.
        rewrite <- app_assoc, <- H. symmetry. apply firstn_skipn.
    + intros [H|H].
      * injection H as Hq. subst q. right. exists [], ts. split; [reflexivity|exact E].
      * apply IH in H; [|cbn [length]; lia]. destruct H as [H|(ta & tb & H & K)]; [auto|].
        right. exists (W q :: ta), tb. rewrite H. auto.
  - intros [H|H]; [discriminate|]. apply IH in H; [|cbn [length]; lia].
    destruct H as [H|(ta & tb & H & K)]; [auto|]. right. exists (C c :: ta), tb. rewrite H. auto.
Qed.
Lemma vt_split ts ta r tb : vt ts = ta ++ W r :: tb ->
  exists ua q ub, ts = ua ++ W q :: ub /\ tb = vt ub /\
    r = if ident q && negb (called ub) then SALT ++ q else q.
Proof.
  revert ta. induction ts as [|[q|c] ts IH]; intros ta E; cbn [vt] in E.
  - destruct ta; discriminate.
  - destruct ta as [|t ta]; cbn [app] in E.
    + exists [], q, ts. split; [reflexivity|]. split; congruence.
    + injection E as _ E. apply IH in E as (ua & q' & ub & -> & H). exists (W q :: ua), q', ub. auto.
  - destruct ta as [|t ta]; cbn [app] in E; [discriminate|].
    injection E as _ E. apply IH in E as (ua & q' & ub & -> & H). exists (C c :: ua), q', ub. auto.
Qed.

Lemma np_text_qfree s : no_quotes s -> np_text word isspace s = untoks (ft 0 (vt (toks (strip2 s)))).
Proof.
  intros H. apply no_quotes_qfree in H. unfold np_text, np_vars_text.
  rewrite (qfree_vars _ H), vars_vt.
  rewrite toks_untoks by (apply vt_proper; apply toks_proper). apply funcs_ft. apply vt_qfree; auto.
Qed.

Lemma np_text_salted s a r b : no_quotes s ->
  whole_word word (np_text word isspace s) a r b -> ident r = true -> salted r.
Proof.
  intros H Hw Hi. apply toks_whole in Hw. rewrite np_text_qfree in Hw by auto.
  rewrite toks_untoks in Hw by (apply ft_proper; apply vt_proper; apply toks_proper).
  assert (K : In (W r) (ft 0 (vt (toks (strip2 s))))) by (rewrite Hw; apply in_or_app; right; left; auto).
  apply ft_words in K as [K|(ta & tb & E & K)]; [exact K|].
  apply vt_split in E as (ua & q & ub & _ & -> & ->). rewrite Hi in K. cbn [andb] in K.
  rewrite vt_called in K. rewrite K in Hi |- *. cbn [negb] in *. rewrite andb_true_r in Hi |- *.
  destruct (ident q) eqn:Q; [exists q; auto|]. rewrite Q in Hi. discriminate.
Qed.
End Classes.
