(** C26: what [viscid.vjson.loads] hands to the JSON parser. *)
From Coq Require Import List ZArith Bool Arith Lia.
From Verif Require Import JsonModel JsonSpec JsonProofs.
Import ListNotations.
Local Open Scope Z_scope.

Section Helpers.
Context (isspace : Z -> bool) (SP : space_ok isspace).

Lemma join_split s : join_nl (split_nl s) = s.
Proof.
  induction s as [|c s IH]; [reflexivity|]. cbn [split_nl].
  destruct (split_nl s) as [|l ls] eqn:E.
  { exfalso. destruct s as [|d s]; cbn [split_nl] in E; [discriminate|].
    destruct (split_nl s); [discriminate|]. destruct (d =? NL); discriminate. }
  destruct (Z.eqb_spec c NL) as [->|N].
  - change (join_nl ([] :: l :: ls)) with (NL :: join_nl (l :: ls)). rewrite IH. reflexivity.
  - destruct ls as [|l2 ls].
    + cbn [join_nl] in *. rewrite IH. reflexivity.
    + change (join_nl ((c :: l) :: l2 :: ls)) with (c :: join_nl (l :: l2 :: ls)). rewrite IH. reflexivity.
Qed.

Lemma deleted_refl s : deleted s s.
Proof. induction s; constructor; auto. Qed.
Lemma deleted_trans s t u : deleted s t -> deleted t u -> deleted s u.
Proof.
  intros H. revert u. induction H as [|c s t H IH|c s t H IH]; intros u Hu.
  - exact Hu.
  - inversion Hu; subst; [constructor; auto|apply del_drop; auto].
  - apply del_drop; auto.
Qed.
Lemma deleted_none s : deleted s [].
Proof. induction s; [constructor|apply del_drop; auto]. Qed.
Lemma deleted_app s t a b : deleted s t -> deleted a b -> deleted (s ++ a) (t ++ b).
Proof. intros H Ha. induction H; cbn [app]; [exact Ha|constructor; auto|apply del_drop; auto]. Qed.

Lemma rstrip_deleted s : deleted s (rstrip isspace s).
Proof.
  induction s as [|c s IH]; cbn [rstrip]; [constructor|].
  destruct (rstrip isspace s); [|constructor; auto].
  destruct (isspace c); [apply del_drop|apply del_keep]; auto.
Qed.
Lemma without_comment_deleted s : forall dq sq, deleted s (without_comment dq sq s).
Proof.
  induction s as [|c s IH]; intros dq sq; cbn [without_comment]; [constructor|].
  destruct (_ && _)%bool; [apply deleted_none|constructor; apply IH].
Qed.
Lemma drop_deleted s : deleted s (drop_trailing_commas isspace s).
Proof.
  induction s as [|c s IH]; cbn [drop_trailing_commas]; [constructor|].
  destruct (_ && _)%bool; [apply del_drop|apply del_keep]; auto.
Qed.
Lemma join_deleted ls f : (forall l, deleted l (f l)) -> deleted (join_nl ls) (join_nl (map f ls)).
Proof.
  intros H. induction ls as [|l ls IH]; [constructor|]. destruct ls as [|l2 ls]; [apply H|].
  change (deleted (l ++ NL :: join_nl (l2 :: ls)) (f l ++ NL :: join_nl (map f (l2 :: ls)))).
  apply deleted_app; [apply H|]. constructor. exact IH.
Qed.

Lemma without_comment_id l : no_comment l -> without_comment false false l = l.
Proof.
  intros H. destruct (without_comment_spec l false false) as [(p & (P1 & P2 & P3) & _)|(_ & E)]; [|exact E].
  exfalso. cbn [xorb] in P2, P3. destruct (H p P1) as [E|E].
  - rewrite E in P2. discriminate.
  - rewrite E in P3. discriminate.
Qed.

Lemma next_closes_witness s : next_closes isspace s = true ->
  exists w c b, s = w ++ c :: b /\ (forall x, In x w -> isspace x = true) /\ closer c = true.
Proof.
  induction s as [|c s IH]; cbn [next_closes]; [discriminate|]. destruct (isspace c) eqn:S.
  - intros H. destruct (IH H) as (w & d & b & -> & W & C). exists (c :: w), d, b.
    split; [reflexivity|]. split; [intros x [<-|Hx]; auto|exact C].
  - intros H. exists [], c, s. split; [reflexivity|]. split; [intros x []|exact H].
Qed.

(** trimming the lines does not change what follows a comma *)
Lemma next_rstrip b l : next isspace b (rstrip isspace l) = next isspace b l.
Proof.
  destruct (rstrip_split isspace l) as (w & E & B). rewrite E at 2.
  rewrite next_app, (blank_next isspace b w B). reflexivity.
Qed.
Lemma nextL_rstrip b ks : nextL isspace b (map (rstrip isspace) ks) = nextL isspace b ks.
Proof. induction ks as [|k ks IH]; cbn [map nextL]; [reflexivity|]. rewrite IH. apply next_rstrip. Qed.

Lemma dropc_id_no b s :
  (forall a t, s = a ++ COMMA :: t -> next isspace b t = false) -> dropc isspace b s = s.
Proof.
  induction s as [|c s IH]; intros H; cbn [dropc]; [reflexivity|].
  rewrite IH by (intros a t E; apply (H (c :: a) t); rewrite E; reflexivity).
  destruct (Z.eqb_spec c COMMA) as [->|]; [|reflexivity].
  rewrite (H [] s eq_refl). reflexivity.
Qed.

Lemma fin_rstrip b ks :
  (forall a t, join_nl ks = a ++ COMMA :: t -> next isspace b t = false) ->
  fin isspace b (map (rstrip isspace) ks) = map (rstrip isspace) ks.
Proof.
  induction ks as [|k ks IH]; intros H; cbn [map fin]; [reflexivity|]. f_equal.
  - rewrite nextL_rstrip. apply dropc_id_no. intros a t E.
    destruct (rstrip_split isspace k) as (w & Ew & B). rewrite E in Ew.
    destruct ks as [|k2 ks].
    + cbn [nextL]. specialize (H a (t ++ w)). cbn [join_nl] in H.
      rewrite Ew, <- app_assoc in H. specialize (H eq_refl). rewrite next_app, (blank_next isspace b w B) in H.
      exact H.
    + specialize (H a (t ++ w ++ NL :: join_nl (k2 :: ks))).
      change (join_nl (k :: k2 :: ks)) with (k ++ NL :: join_nl (k2 :: ks)) in H.
      rewrite Ew in H. rewrite <- !app_assoc in H. specialize (H eq_refl).
      rewrite next_app, (next_app isspace b w), (blank_next isspace _ w B) in H.
      cbn [next] in H. rewrite (sp_nl _ SP), (next_join isspace SP) in H. exact H.
  - destruct ks as [|k2 ks]; [reflexivity|]. apply IH. intros a t E.
    apply (H (k ++ NL :: a) t). change (join_nl (k :: k2 :: ks)) with (k ++ NL :: join_nl (k2 :: ks)).
    rewrite E, <- app_assoc. reflexivity.
Qed.
End Helpers.

(** For every text and every notion of white space: the cleaning never fails, and
    hands over the text without comments, without white space at the ends of lines
    and without commas before closing brackets. *)
Theorem C26_cleaned : forall isspace s,
  space_ok isspace -> cleaned isspace s = Some (relaxed isspace s).
Proof. intros isspace s H. apply cleaned_relaxed. exact H. Qed.
Print Assumptions C26_cleaned.

(** Nothing is ever added, replaced or reordered. *)
Theorem C26_only_deletes : forall isspace s,
  space_ok isspace -> exists t, cleaned isspace s = Some t /\ deleted s t.
Proof.
  intros isspace s H. exists (relaxed isspace s). split; [apply C26_cleaned; auto|].
  unfold relaxed. eapply deleted_trans; [|apply drop_deleted].
  rewrite <- (join_split s) at 1. apply join_deleted. intros l. unfold bare_line.
  eapply deleted_trans; [apply without_comment_deleted|apply rstrip_deleted].
Qed.
Print Assumptions C26_only_deletes.

(** A text without comments and trailing commas loses at most the white space at
    the ends of its lines. *)
Theorem C26_standard_unchanged : forall isspace s,
  space_ok isspace ->
  Forall no_comment (split_nl s) -> no_trailing_comma isspace s ->
  cleaned isspace s = Some (join_nl (map (rstrip isspace) (split_nl s))).
Proof.
  intros isspace s SP NC NT. rewrite C26_cleaned by auto. f_equal. unfold relaxed.
  assert (E : map (bare_line isspace) (split_nl s) = map (rstrip isspace) (split_nl s)).
  { apply map_ext_in. intros l Hl. unfold bare_line. rewrite without_comment_id; [reflexivity|].
    rewrite Forall_forall in NC. auto. }
  rewrite E, <- dropc_false, <- (join_fin isspace SP), fin_rstrip; auto.
  rewrite join_split. intros a t Es. rewrite next_false.
  destruct (next_closes isspace t) eqn:N; [|reflexivity].
  apply next_closes_witness in N as (w & c & b & -> & W & C).
  rewrite (NT a w c b Es W) in C. discriminate.
Qed.
Print Assumptions C26_standard_unchanged.

(** Corollary: without white space at line ends the text is handed over as it is. *)
Theorem C26_identity : forall isspace s,
  space_ok isspace ->
  Forall no_comment (split_nl s) -> no_trailing_comma isspace s ->
  Forall (fun l => rstrip isspace l = l) (split_nl s) ->
  cleaned isspace s = Some s.
Proof.
  intros isspace s SP NC NT NR. rewrite C26_standard_unchanged by auto. f_equal.
  rewrite <- (join_split s) at 2. f_equal. rewrite <- (map_id (split_nl s)) at 2.
  apply map_ext_in. rewrite Forall_forall in NR. auto.
Qed.
Print Assumptions C26_identity.

(** ASCII white space, for the examples. *)
Definition ascii_space (c : Z) : bool := (c =? 32) || ((9 <=? c) && (c <=? 13)).

Example ascii_space_ok : space_ok ascii_space.
Proof. constructor; reflexivity. Qed.

(** Documents where string literals are altered (the property as stated fails). *)
(** ["a,]"] becomes ["a]"] *)
Theorem C26_strings_unaltered_refuted : exists s t,
  cleaned ascii_space s = Some t /\
  s = [91; 34; 97; 44; 93; 34; 93] /\ t = [91; 34; 97; 93; 34; 93].
Proof. do 2 eexists. split; [|split; reflexivity]. vm_compute. reflexivity. Qed.
Print Assumptions C26_strings_unaltered_refuted.

(** bracket, quote, backslash, quote, hash, quote, bracket: an escaped quote makes the rest of the string look like a comment *)
Theorem C26_escaped_quote_refuted : exists s t,
  cleaned ascii_space s = Some t /\
  s = [91; 34; 92; 34; 35; 34; 93] /\ t = [91; 34; 92; 34].
Proof. do 2 eexists. split; [|split; reflexivity]. vm_compute. reflexivity. Qed.
Print Assumptions C26_escaped_quote_refuted.

(** ["it's"] #c : an apostrophe in a string keeps the comment after it *)
Theorem C26_comment_kept_refuted : exists s,
  cleaned ascii_space s = Some s /\
  s = [91; 34; 105; 116; 39; 115; 34; 93; 32; 35; 99].
Proof. eexists. split; [|reflexivity]. vm_compute. reflexivity. Qed.
Print Assumptions C26_comment_kept_refuted.

(** A document with two comments, nested trailing commas within and across lines:
    [ {1, } , // x
      # y
      ]   *)
Example cleaned_example :
  cleaned ascii_space ([91; 32; 123; 49; 44; 32; 125; 32; 44; 32; 47; 47; 32; 120; 10] ++
                       [32; 35; 32; 121; 10] ++ [32; 93])
  = Some ([91; 32; 123; 49; 32; 125; 32; 10] ++ [10] ++ [32; 93]).
Proof. vm_compute. reflexivity. Qed.

(** The hypotheses of [C26_identity] are met by a document with a marker in a
    string: ["#",<newline>1] *)
Example identity_example :
  let s := [91; 34; 35; 34; 44; 10; 49; 93] in
  Forall no_comment (split_nl s) /\ no_trailing_comma ascii_space s /\
  Forall (fun l => rstrip ascii_space l = l) (split_nl s) /\ cleaned ascii_space s = Some s.
Proof.
  cbn zeta. split; [|split; [|split]].
  - change (split_nl [91; 34; 35; 34; 44; 10; 49; 93]) with [[91; 34; 35; 34; 44]; [49; 93]].
    apply Forall_cons; [|apply Forall_cons; [|constructor]]; intros p;
      do 6 (destruct p as [|p]; [cbn; intros; auto; discriminate|]); cbn;
      rewrite ?skipn_nil; discriminate.
  - intros a w c b E W.
    do 4 (destruct a as [|? a]; [discriminate|cbn [app] in E; injection E as <- E]).
    destruct a as [|? a]; cbn [app] in E; injection E as E.
    + destruct w as [|x w]; cbn [app] in E.
      * injection E as <- _. reflexivity.
      * injection E as <- E. destruct w as [|y w]; cbn [app] in E.
        -- injection E as <- _. reflexivity.
        -- exfalso. injection E as <- _. specialize (W 49 (or_intror (or_introl eq_refl))).
           discriminate.
    + exfalso. do 3 (destruct a as [|? a]; [discriminate|cbn [app] in H; injection H as _ H]).
      destruct a; discriminate.
  - repeat constructor.
  - vm_compute. reflexivity.
Qed.
