(** C27: what reaches [eval] and numexpr. *)
From Coq Require Import List ZArith Bool Arith Lia.
From Verif Require Import EvalModel EvalSpec EvalProofs.
Import ListNotations.
Local Open Scope Z_scope.

(** No text that is evaluated, and no name that is looked up, has two underscores in
    a row, whatever the equation, the grid, and the path taken. *)
Theorem C27_no_dunder : forall word isspace enabled has_ne try_ne grid ne ev eqn e,
  In e (snd (evaluate word isspace enabled has_ne try_ne grid ne ev eqn)) ->
  ~ has_dunder (effect_text e).
Proof. intros. eapply evaluate_und; eauto. Qed.
Print Assumptions C27_no_dunder.

(** Disabled: an error, and nothing is looked up or evaluated. *)
Theorem C27_disabled : forall word isspace has_ne try_ne grid ne ev eqn,
  evaluate word isspace false has_ne try_ne grid ne ev eqn = (Raise RuntimeE, []).
Proof. reflexivity. Qed.
Print Assumptions C27_disabled.

(** Without quotes in the equation, every identifier in the text given to [eval] is
    a salted one: neither attributes nor builtins can be named. *)
Theorem C27_only_salted_names : forall word isspace has_ne try_ne grid ne ev eqn t a r b,
  classes_ok word isspace -> no_quotes eqn ->
  In (Eval t) (snd (evaluate word isspace true has_ne try_ne grid ne ev eqn)) ->
  whole_word word t a r b -> ident r = true ->
  exists n, r = SALT ++ n /\ ident n = true.
Proof.
  intros word isspace has_ne try_ne grid ne ev eqn t a r b CL NQ HE Hw Hi.
  enough (E : t = np_text word isspace eqn).
  { subst t. eapply np_text_salted; eauto. }
  assert (NP : forall es, ~ In (Eval t) es ->
    In (Eval t) (snd (let (o, es') := evaluate_numpy word isspace true grid ev eqn in (o, es ++ es'))) ->
    t = np_text word isspace eqn).
  { intros es Nes. unfold evaluate_numpy. cbn [negb].
    destruct (lookups _ _ _ _) as [es' x] eqn:L.
    assert (K : ~ In (Eval t) es').
    { intros H. destruct (lookups_names grid (syms_np isspace (toks word (strip2 eqn))) false [] (Eval t))
        as (n & D & _); [rewrite L; exact H|discriminate]. }
    destruct x; cbn [snd]; intros H; apply in_app_or in H as [H|H]; try contradiction.
    apply in_app_or in H as [H|H]; [contradiction|]. apply in_app_or in H as [H|[H|[]]]; [|congruence].
    apply in_map_iff in H as (n & D & _). discriminate. }
  revert HE. unfold evaluate. cbn [negb]. destruct try_ne; [|apply NP; intros []].
  assert (N : ~ In (Eval t) (snd (evaluate_numexpr word isspace has_ne grid ne eqn))).
  { unfold evaluate_numexpr. destruct has_ne; cbn [negb]; [|intros []].
    destruct (lookups _ _ _ _) as [es' x] eqn:L.
    assert (K : ~ In (Eval t) es').
    { intros H. destruct (lookups_names grid (syms_ne isspace (toks word (strip2 eqn))) true [] (Eval t))
        as (n & D & _); [rewrite L; exact H|discriminate]. }
    destruct x; cbn [snd]; [exact K|]. intros H. apply in_app_or in H as [H|[H|[]]]; [auto|discriminate]. }
  destruct (evaluate_numexpr word isspace has_ne grid ne eqn) as [[|[| |]] es];
    intros HE; first [exfalso; exact (N HE) | eapply NP; [exact N|exact HE]].
Qed.
Print Assumptions C27_only_salted_names.

(** The fields looked up are the variables of the sanitised equation, each once. *)
Lemma memb_in x l : memb x l = true <-> In x l.
Proof.
  unfold memb. rewrite existsb_exists. split.
  - intros (y & Hy & E). destruct (list_eq_dec Z.eq_dec x y); [subst; auto|discriminate].
  - intros H. exists x. split; [auto|]. destruct (list_eq_dec Z.eq_dec x x); [auto|congruence].
Qed.
Lemma lookups_all grid syms : (forall n, grid n = GField) -> forall strict seen,
  exists ns, lookups grid strict syms seen = (map GetField ns, None) /\ NoDup ns /\
    forall n, In n ns <-> In n syms /\ ~ In n seen.
Proof.
  intros HG. induction syms as [|s syms IH]; intros strict seen; cbn [lookups].
  - exists []. split; [reflexivity|]. split; [constructor|]. intros n. cbn [In]. tauto.
  - destruct (memb s seen) eqn:M.
    + apply memb_in in M. destruct (IH strict seen) as (ns & E & N & H). exists ns.
      split; [exact E|]. split; [exact N|]. intros n. rewrite H. cbn [In]. split; [tauto|].
      intros [[<-|K] K2]; tauto.
    + assert (M' : ~ In s seen) by (intros K; apply memb_in in K; congruence).
      rewrite HG. destruct (IH false (s :: seen)) as (ns & E & N & H). rewrite E.
      exists (s :: ns). split; [reflexivity|]. split.
      * constructor; [|exact N]. rewrite H. cbn [In]. tauto.
      * intros n. cbn [In]. rewrite H. cbn [In].
        destruct (list_eq_dec Z.eq_dec s n) as [->|D]; [tauto|]. tauto.
Qed.

Theorem C27_fields_looked_up : forall word isspace grid ne eqn,
  classes_ok word isspace -> (forall n, grid n = GField) ->
  exists ns t, snd (evaluate_numexpr word isspace true grid ne eqn) = map GetField ns ++ [NumExpr t] /\
    NoDup ns /\ forall n, In n ns <-> variable_in word isspace (strip2 eqn) n.
Proof.
  intros word isspace grid ne eqn CL HG. unfold evaluate_numexpr. cbn [negb].
  destruct (lookups_all grid (syms_ne isspace (toks word (strip2 eqn))) HG true []) as (ns & E & N & H).
  rewrite E. exists ns, (ne_text word isspace eqn). split; [reflexivity|]. split; [exact N|].
  intros n. rewrite H, (syms_variable word isspace CL). cbn [In]. tauto.
Qed.
Print Assumptions C27_fields_looked_up.

(** The same for the numpy path when the equation has no quotes. *)
Theorem C27_fields_looked_up_numpy : forall word isspace grid ev eqn,
  classes_ok word isspace -> no_quotes eqn -> (forall n, grid n = GField) ->
  exists ns fs t, snd (evaluate_numpy word isspace true grid ev eqn) =
      map GetField ns ++ map HasAttr fs ++ [Eval t] /\
    NoDup ns /\ forall n, In n ns <-> variable_in word isspace (strip2 eqn) n.
Proof.
  intros word isspace grid ev eqn CL NQ HG. unfold evaluate_numpy. cbn [negb].
  rewrite (qfree_syms isspace) by (apply no_quotes_qfree; auto).
  destruct (lookups_all grid (syms_ne isspace (toks word (strip2 eqn))) HG false []) as (ns & E & N & H).
  rewrite E. do 3 eexists. split; [reflexivity|]. split; [exact N|].
  intros n. rewrite H, (syms_variable word isspace CL). cbn [In]. tauto.
Qed.
Print Assumptions C27_fields_looked_up_numpy.

(** An equation without double underscores is not changed by the sanitising, so the
    fields looked up are then the variables as written. *)
Theorem C27_plain_kept : forall eqn, ~ has_dunder eqn -> strip2 eqn = eqn.
Proof.
  intros eqn. induction eqn as [|c s IH]; intros H; [reflexivity|].
  destruct s as [|d r]; [reflexivity|]. rewrite strip2_cc.
  destruct ((c =? US) && (d =? US))%bool eqn:E.
  - apply andb_true_iff in E as [E1 E2]. apply Z.eqb_eq in E1, E2. subst. exfalso. apply H.
    exists [], r. reflexivity.
  - f_equal. apply IH. intros (a & b & K). apply H. exists (c :: a), b. rewrite K. reflexivity.
Qed.
Print Assumptions C27_plain_kept.

(** The ASCII classes meet the hypotheses. *)
Definition aword (c : Z) : bool := id_cont c.
Definition aspace (c : Z) : bool := (c =? 32) || ((9 <=? c) && (c <=? 13)).
Example ascii_classes : classes_ok aword aspace.
Proof.
  constructor; auto. intros c. unfold aspace, aword, id_cont, id_start, US. lia.
Qed.

(** A field whose name has a double underscore is looked up under another name:
    [a__b] asks for [ab]. *)
Theorem C27_dunder_field_refuted : forall grid ne ev,
  (forall n, grid n = GField) -> (forall t, ne t = None) ->
  In (GetField [97; 98])
     (snd (evaluate aword aspace true true true grid ne ev [97; 95; 95; 98])) /\
  ~ In (GetField [97; 95; 95; 98])
     (snd (evaluate aword aspace true true true grid ne ev [97; 95; 95; 98])).
Proof.
  intros grid ne ev HG HN. unfold evaluate, evaluate_numexpr.
  change (syms_ne aspace (toks aword (strip2 [97; 95; 95; 98]))) with [[97; 98]].
  cbn [negb lookups memb existsb]. rewrite HG. cbn [app]. rewrite HN. cbn [snd]. split.
  - left. reflexivity.
  - intros [H|[H|[]]]; discriminate.
Qed.
Print Assumptions C27_dunder_field_refuted.

(** In the numpy path a name in double quotes is taken for a variable, quote
    included, and the salt is put outside the string: ["x"] becomes [SALT"x"]. *)
Theorem C27_double_quotes_refuted : forall grid ev,
  (forall n, grid n = GField) ->
  snd (evaluate aword aspace true false true grid (fun _ => None) ev [DQ; 120; DQ]) =
  [GetField [DQ; 120]; Eval (SALT ++ [DQ; 120; DQ])].
Proof.
  intros grid ev HG. unfold evaluate, evaluate_numexpr, evaluate_numpy.
  change (syms_np aspace (toks aword (strip2 [DQ; 120; DQ]))) with [[DQ; 120]].
  cbn [negb lookups memb existsb]. rewrite HG. vm_compute. reflexivity.
Qed.
Print Assumptions C27_double_quotes_refuted.

(** [sqrt (x_+y)*x_] : two fields, one function, everything salted. *)
Example eval_example :
  let eqn := [115; 113; 114; 116; 32; 40; 120; 95; 43; 121; 41; 42; 120; 95] in
  no_quotes eqn /\
  evaluate aword aspace true false true (fun _ => GField) (fun _ => None) (fun _ => None) eqn =
  (Value, [GetField [120; 95]; GetField [121]; HasAttr [115; 113; 114; 116];
           Eval (SALT ++ [115; 113; 114; 116; 40] ++ SALT ++ [120; 95; 43] ++ SALT ++ [121; 41; 42] ++
                 SALT ++ [120; 95])]).
Proof.
  split.
  - split; intros H; repeat (destruct H as [H|H]; [discriminate|]); destruct H.
  - vm_compute. reflexivity.
Qed.
(** removal does not create new pairs: three underscores leave one, [a_] stays *)
Example strip_example : strip2 [US; US; US; 97; US] = [US; 97; US].
Proof. reflexivity. Qed.
