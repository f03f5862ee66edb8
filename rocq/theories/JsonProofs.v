From Coq Require Import List ZArith Bool Arith Lia ZifyBool ZifyNat.
From Verif Require Import JsonModel JsonSpec.
Import ListNotations.
Local Open Scope Z_scope.

(** ** finding substrings *)
Lemma skipn_skipn' {A} (l : list A) a b : skipn a (skipn b l) = skipn (b + a) l.
Proof.
  revert l. induction b as [|b IH]; intros l; [reflexivity|].
  destruct l as [|x l]; [destruct a; reflexivity|]. cbn [skipn Nat.add]. apply IH.
Qed.

Lemma find_in_some s sub i :
  find_in s sub = Some i ->
  is_prefix sub (skipn i s) = true /\ (i <= length s)%nat /\
  forall j, (j < i)%nat -> is_prefix sub (skipn j s) = false.
Proof.
  revert i. induction s as [|c s IH]; intros i; cbn [find_in].
  - destruct (is_prefix sub []) eqn:E; [|discriminate]. intros [= <-].
    split; [exact E|]. split; [cbn; lia|]. intros; lia.
  - destruct (is_prefix sub (c :: s)) eqn:E.
    + intros [= <-]. split; [exact E|]. split; [cbn; lia|]. intros; lia.
    + destruct (find_in s sub) as [k|] eqn:F; [|discriminate]. intros [= <-].
      destruct (IH k eq_refl) as (H1 & H2 & H3). cbn [skipn length]. split; [exact H1|].
      split; [lia|]. intros [|j] Hj; [exact E|]. apply H3. lia.
Qed.
Lemma find_in_none s sub j :
  find_in s sub = None -> is_prefix sub (skipn j s) = false.
Proof.
  revert j. induction s as [|c s IH]; intros j; cbn [find_in].
  - destruct (is_prefix sub []) eqn:E; [discriminate|]. intros _. rewrite skipn_nil. exact E.
  - destruct (is_prefix sub (c :: s)) eqn:E; [discriminate|].
    destruct (find_in s sub) eqn:F; [discriminate|]. intros _.
    destruct j as [|j]; [exact E|]. apply IH. reflexivity.
Qed.

Definition hit (s : text) (subs : list text) (p : nat) : Prop :=
  exists sub, In sub subs /\ is_prefix sub (skipn p s) = true.

Definition best_ok (s : text) (seen : list text) (start : nat) (best : option (nat * nat)) : Prop :=
  match best with
  | None => forall p, (start <= p)%nat -> ~ hit s seen p
  | Some (i, n) => (start <= i)%nat /\
      (exists sub, In sub seen /\ is_prefix sub (skipn i s) = true /\ n = length sub) /\
      forall p, (start <= p < i)%nat -> ~ hit s seen p
  end.

Lemma hit_app s a b p : hit s (a ++ b) p <-> hit s a p \/ hit s b p.
Proof.
  unfold hit. split.
  - intros (sub & Hin & H). apply in_app_or in Hin as [Hin|Hin]; eauto.
  - intros [(sub & Hin & H)|(sub & Hin & H)]; exists sub; (split; [apply in_or_app; auto|auto]).
Qed.
Lemma hit_one s sub p : hit s [sub] p <-> is_prefix sub (skipn p s) = true.
Proof.
  unfold hit. split.
  - intros (u & [<-|[]] & H). exact H.
  - intros H. exists sub. split; [left; auto|auto].
Qed.

Lemma earliest_ok s subs start : forall seen best,
  best_ok s seen start best -> best_ok s (seen ++ subs) start (earliest s subs start best).
Proof.
  induction subs as [|sub subs IH]; intros seen best H; cbn [earliest].
  - rewrite app_nil_r. exact H.
  - replace (seen ++ sub :: subs) with ((seen ++ [sub]) ++ subs) by (rewrite <- app_assoc; reflexivity).
    apply IH. unfold find_from. destruct (find_in (skipn start s) sub) as [k|] eqn:F; cbn [option_map].
    + apply find_in_some in F as (F1 & _ & F3). rewrite skipn_skipn' in F1.
      assert (F3' : forall p, (start <= p < start + k)%nat -> is_prefix sub (skipn p s) = false).
      { intros p Hp. specialize (F3 (p - start)%nat ltac:(lia)). rewrite skipn_skipn' in F3.
        replace (start + (p - start))%nat with p in F3 by lia. exact F3. }
      assert (NEW : forall p, (start <= p < start + k)%nat -> ~ hit s [sub] p).
      { intros p Hp Hh. apply hit_one in Hh. rewrite F3' in Hh by lia. discriminate. }
      destruct best as [[j n]|]; cbn [best_ok] in H.
      * destruct H as (H1 & (u & Hu & Hp & Hn) & H3).
        destruct (Nat.ltb_spec (start + k) j); cbn [best_ok].
        -- split; [lia|]. split.
           { exists sub. split; [apply in_or_app; right; left; auto|auto]. }
           intros p Hp' Hh. apply hit_app in Hh as [Hh|Hh]; [apply (H3 p); [lia|auto]|apply (NEW p); [lia|auto]].
        -- split; [lia|]. split.
           { exists u. split; [apply in_or_app; left; auto|auto]. }
           intros p Hp' Hh. apply hit_app in Hh as [Hh|Hh]; [apply (H3 p); [lia|auto]|apply (NEW p); [lia|auto]].
      * cbn [best_ok]. split; [lia|]. split.
        { exists sub. split; [apply in_or_app; right; left; auto|auto]. }
        intros p Hp' Hh. apply hit_app in Hh as [Hh|Hh]; [apply (H p); [lia|auto]|apply (NEW p); [lia|auto]].
    + assert (NEW : forall p, (start <= p)%nat -> ~ hit s [sub] p).
      { intros p Hp Hh. apply hit_one in Hh.
        pose proof (find_in_none _ _ (p - start)%nat F) as E. rewrite skipn_skipn' in E.
        replace (start + (p - start))%nat with p in E by lia. congruence. }
      destruct best as [[j n]|]; cbn [best_ok] in *.
      * destruct H as (H1 & (u & Hu & Hp & Hn) & H3). split; [lia|]. split.
        { exists u. split; [apply in_or_app; left; auto|auto]. }
        intros p Hp' Hh. apply hit_app in Hh as [Hh|Hh]; [apply (H3 p); [lia|auto]|apply (NEW p); [lia|auto]].
      * intros p Hp' Hh. apply hit_app in Hh as [Hh|Hh]; [apply (H p); [lia|auto]|apply (NEW p); [lia|auto]].
Qed.

Lemma earliest_spec s subs start : best_ok s subs start (earliest s subs start None).
Proof.
  apply (earliest_ok s subs start [] None). intros p _ (sub & [] & _).
Qed.

Lemma is_prefix_len sub s : is_prefix sub s = true -> (length sub <= length s)%nat.
Proof.
  revert s. induction sub as [|a sub IH]; intros [|b s] H; cbn in *; try lia; try discriminate.
  apply andb_true_iff in H as [_ H]. apply IH in H. lia.
Qed.

(** ** comments *)
Notation MARKS := [[HASH]; [SLASH; SLASH]].

Lemma hit_marker s p : hit s MARKS p <-> marker (skipn p s) = true.
Proof.
  unfold hit, marker. split.
  - intros (sub & [<-|[<-|[]]] & H).
    + destruct (skipn p s) as [|c t]; [discriminate|]. cbn [is_prefix] in H.
      rewrite andb_true_r in H. rewrite Z.eqb_sym in H. rewrite H. reflexivity.
    + destruct (skipn p s) as [|c t]; [discriminate|]. cbn [is_prefix] in H.
      apply andb_true_iff in H as [H1 H2]. destruct t as [|d t]; [discriminate|].
      rewrite andb_true_r in H2. rewrite Z.eqb_sym in H1, H2. rewrite H1, H2. apply orb_true_r.
  - destruct (skipn p s) as [|c t]; [discriminate|]. intros H. apply orb_true_iff in H as [H|H].
    + exists [HASH]. split; [left; auto|]. cbn [is_prefix]. rewrite Z.eqb_sym, H. reflexivity.
    + apply andb_true_iff in H as [H1 H2]. destruct t as [|d t]; [discriminate|].
      exists [SLASH; SLASH]. split; [right; left; auto|]. cbn [is_prefix].
      rewrite Z.eqb_sym, H1, (Z.eqb_sym SLASH d), H2. reflexivity.
Qed.

Definition quiet (l : text) (p : nat) : bool :=
  (Nat.even (count DQ (firstn p l)) && Nat.even (count SQ (firstn p l)))%bool.
Definition cuts (l : text) (p : nat) : Prop := marker (skipn p l) = true /\ quiet l p = true.

Lemma firstn_S_snoc {A} (l : list A) p c t : skipn p l = c :: t -> firstn (S p) l = firstn p l ++ [c].
Proof.
  revert p. induction l as [|a l IH]; intros p H.
  - rewrite skipn_nil in H. discriminate.
  - destruct p as [|p]; cbn in H.
    + injection H as -> ->. reflexivity.
    + cbn [firstn app]. f_equal. apply IH; auto.
Qed.
Lemma skipn_S {A} (l : list A) p c t : skipn p l = c :: t -> skipn (S p) l = t.
Proof.
  intros H. replace (S p) with (p + 1)%nat by lia. rewrite <- skipn_skipn', H. reflexivity.
Qed.
Lemma count_app c a b : count c (a ++ b) = (count c a + count c b)%nat.
Proof. unfold count. rewrite filter_app, app_length. reflexivity. Qed.

Lemma quiet_slash l p t : skipn p l = SLASH :: t -> quiet l (S p) = quiet l p.
Proof.
  intros H. unfold quiet. rewrite (firstn_S_snoc l p SLASH t H), !count_app.
  change (count DQ [SLASH]) with 0%nat. change (count SQ [SLASH]) with 0%nat. rewrite !Nat.add_0_r. reflexivity.
Qed.

Lemma cut_at_spec l : forall fuel start,
  (length l < start + fuel)%nat ->
  (exists p, (start <= p)%nat /\ cuts l p /\ (forall q, (start <= q < p)%nat -> ~ cuts l q) /\
             cut_at l (find_all l MARKS start fuel) = firstn p l) \/
  ((forall q, (start <= q)%nat -> ~ cuts l q) /\ cut_at l (find_all l MARKS start fuel) = l).
Proof.
  induction fuel as [|fuel IH]; intros start Hf; cbn [find_all].
  - right. split; [|reflexivity]. intros q Hq [Hm _]. rewrite skipn_all2 in Hm by lia. discriminate.
  - pose proof (earliest_spec l MARKS start) as E.
    destruct (earliest l MARKS start None) as [[i n]|]; cbn [best_ok] in E.
    + destruct E as (E1 & (sub & Hsub & Hpre & Hn) & E3). cbn [cut_at]. fold (quiet l i).
      assert (Hmi : marker (skipn i l) = true) by (apply hit_marker; exists sub; auto).
      assert (NB : forall q, (start <= q < i)%nat -> ~ cuts l q).
      { intros q Hq [Hm _]. apply (E3 q Hq). apply hit_marker; auto. }
      destruct (quiet l i) eqn:Q.
      * left. exists i. split; [lia|]. split; [split; auto|]. split; auto.
      * assert (Hn1 : (1 <= n)%nat) by (destruct Hsub as [<-|[<-|[]]]; cbn in Hn; lia).
        assert (NB' : forall q, (start <= q < i + n)%nat -> ~ cuts l q).
        { intros q Hq [Hm Hq']. destruct (Nat.lt_ge_cases q i); [apply (NB q); [lia|split; auto]|].
          destruct (Nat.eq_dec q i) as [->|Nq]; [congruence|].
          destruct Hsub as [<-|[<-|[]]]; cbn in Hn; [lia|]. assert (q = S i) by lia. subst q.
          destruct (skipn i l) as [|c t] eqn:S; [discriminate|]. cbn [is_prefix] in Hpre.
          apply andb_true_iff in Hpre as [Hc _]. apply Z.eqb_eq in Hc. subst c.
          rewrite (quiet_slash l i t S) in Hq'. congruence. }
        pose proof (is_prefix_len _ _ Hpre) as Hl.
        destruct (IH (i + n)%nat ltac:(lia)) as [(p & H1 & H2 & H3 & H4)|(H1 & H2)].
        -- left. exists p. split; [lia|]. split; [exact H2|]. split; [|exact H4].
           intros q Hq. destruct (Nat.lt_ge_cases q (i + n)); [apply NB'; lia|apply H3; lia].
        -- right. split; [|exact H2]. intros q Hq.
           destruct (Nat.lt_ge_cases q (i + n)); [apply NB'; lia|apply H1; lia].
    + right. split; [|reflexivity]. intros q Hq [Hm _]. apply (E q Hq). apply hit_marker; auto.
Qed.

Definition cutsx (dq sq : bool) (s : text) (p : nat) : Prop :=
  marker (skipn p s) = true /\ xorb dq (Nat.odd (count DQ (firstn p s))) = false /\
  xorb sq (Nat.odd (count SQ (firstn p s))) = false.

Lemma odd_cons q c s : Nat.odd (count q (c :: s)) = xorb (c =? q) (Nat.odd (count q s)).
Proof.
  unfold count. cbn [filter]. rewrite Z.eqb_sym. destruct (c =? q); cbn [length].
  - rewrite Nat.odd_succ, <- Nat.negb_odd. destruct (Nat.odd _); reflexivity.
  - destruct (Nat.odd _); reflexivity.
Qed.

Lemma cutsx_S dq sq c s p :
  cutsx dq sq (c :: s) (S p) <->
  cutsx (if c =? DQ then negb dq else dq) (if c =? SQ then negb sq else sq) s p.
Proof.
  unfold cutsx. cbn [skipn firstn]. rewrite !odd_cons.
  destruct (c =? DQ), (c =? SQ), dq, sq, (Nat.odd (count DQ (firstn p s))),
    (Nat.odd (count SQ (firstn p s))); reflexivity.
Qed.

Lemma without_comment_spec s : forall dq sq,
  (exists p, cutsx dq sq s p /\ (forall q, (q < p)%nat -> ~ cutsx dq sq s q) /\
             without_comment dq sq s = firstn p s) \/
  ((forall q, ~ cutsx dq sq s q) /\ without_comment dq sq s = s).
Proof.
  induction s as [|c s IH]; intros dq sq; cbn [without_comment].
  - right. split; [|reflexivity]. intros q (Hm & _). rewrite skipn_nil in Hm. discriminate.
  - destruct (marker (c :: s) && negb dq && negb sq)%bool eqn:M.
    + left. exists 0%nat. apply andb_true_iff in M as [M M3]. apply andb_true_iff in M as [M1 M2].
      split; [|split; [intros; lia|reflexivity]].
      unfold cutsx. cbn [firstn skipn]. destruct dq, sq; try discriminate. auto.
    + assert (N0 : ~ cutsx dq sq (c :: s) 0).
      { intros (H1 & H2 & H3). cbn [firstn skipn] in *. change (Nat.odd (count DQ [])) with false in H2.
        change (Nat.odd (count SQ [])) with false in H3.
        rewrite H1 in M. destruct dq, sq; discriminate. }
      destruct (IH (if c =? DQ then negb dq else dq) (if c =? SQ then negb sq else sq))
        as [(p & H1 & H2 & H3)|(H1 & H2)].
      * left. exists (S p). split; [apply cutsx_S; exact H1|]. split; [|cbn [firstn]; f_equal; exact H3].
        intros [|q] Hq; [exact N0|]. rewrite cutsx_S. apply H2. lia.
      * right. split; [|f_equal; exact H2]. intros [|q]; [exact N0|]. rewrite cutsx_S. apply H1.
Qed.

Lemma cuts_cutsx l p : cuts l p <-> cutsx false false l p.
Proof.
  unfold cuts, cutsx, quiet. rewrite <- !Nat.negb_odd. rewrite andb_true_iff, !negb_true_iff.
  cbn [xorb]. destruct (Nat.odd (count DQ (firstn p l))), (Nat.odd (count SQ (firstn p l))); tauto.
Qed.

Lemma remove_comment_spec l : remove_comment l = without_comment false false l.
Proof.
  unfold remove_comment.
  destruct (cut_at_spec l (S (length l)) 0 ltac:(lia)) as [(p & _ & P1 & P2 & P3)|(P1 & P2)];
  destruct (without_comment_spec l false false) as [(q & Q1 & Q2 & Q3)|(Q1 & Q2)].
  - rewrite P3, Q3. f_equal. destruct (Nat.lt_trichotomy p q) as [L|[L|L]]; auto; exfalso.
    + apply (Q2 p L). apply cuts_cutsx; auto.
    + apply (P2 q); [lia|]. apply cuts_cutsx; auto.
  - exfalso. apply (Q1 p). apply cuts_cutsx; auto.
  - exfalso. apply (P1 q); [lia|]. apply cuts_cutsx; auto.
  - congruence.
Qed.

(** ** closing brackets *)
Notation CLOSE := [[RBRACE]; [RBRACKET]].
Fixpoint pos (k : nat) (l : text) : list nat :=
  match l with
  | [] => []
  | c :: l' => if closer c then k :: pos (S k) l' else pos (S k) l'
  end.

Lemma hit_closer s p : hit s CLOSE p <-> exists c t, skipn p s = c :: t /\ closer c = true.
Proof.
  unfold hit, closer. split.
  - intros (sub & [<-|[<-|[]]] & H); destruct (skipn p s) as [|c t]; try discriminate;
      cbn [is_prefix] in H; rewrite andb_true_r in H; exists c, t; (split; [reflexivity|]);
      rewrite Z.eqb_sym in H; rewrite H; [reflexivity|apply orb_true_r].
  - intros (c & t & S & H). apply orb_true_iff in H as [H|H]; rewrite Z.eqb_sym in H.
    + exists [RBRACE]. split; [left; auto|]. rewrite S. cbn [is_prefix]. rewrite H. reflexivity.
    + exists [RBRACKET]. split; [right; left; auto|]. rewrite S. cbn [is_prefix]. rewrite H. reflexivity.
Qed.

Lemma pos_skip l : forall d k i,
  i = (k + d)%nat -> (forall p, (k <= p < i)%nat -> ~ hit l CLOSE p) ->
  pos k (skipn k l) = pos i (skipn i l).
Proof.
  induction d as [|d IH]; intros k i Hi Hno.
  - replace i with k by lia. reflexivity.
  - rewrite <- (IH (S k) i ltac:(lia)) by (intros p Hp; apply Hno; lia).
    destruct (skipn k l) as [|c t] eqn:E.
    + replace (S k) with (k + 1)%nat by lia. rewrite <- skipn_skipn', E. reflexivity.
    + rewrite (skipn_S l k c t E). cbn [pos].
      destruct (closer c) eqn:C; [|reflexivity]. exfalso. apply (Hno k ltac:(lia)).
      apply hit_closer. eauto.
Qed.
Lemma pos_none l k : (forall p, (k <= p)%nat -> ~ hit l CLOSE p) -> pos k (skipn k l) = [].
Proof.
  intros H. rewrite (pos_skip l (length l) k (k + length l)%nat eq_refl).
  - rewrite skipn_all2 by lia. reflexivity.
  - intros p Hp. apply H. lia.
Qed.

Lemma find_all_closers l : forall fuel start,
  (length l < start + fuel)%nat -> find_all l CLOSE start fuel = pos start (skipn start l).
Proof.
  induction fuel as [|fuel IH]; intros start Hf; cbn [find_all].
  - rewrite skipn_all2 by lia. reflexivity.
  - pose proof (earliest_spec l CLOSE start) as E.
    destruct (earliest l CLOSE start None) as [[i n]|]; cbn [best_ok] in E.
    + destruct E as (E1 & (sub & Hsub & Hpre & Hn) & E3).
      rewrite (pos_skip l (i - start) start i ltac:(lia) E3).
      assert (H : hit l CLOSE i) by (exists sub; auto). apply hit_closer in H as (c & t & S & C).
      rewrite S. cbn [pos]. rewrite C. f_equal.
      assert (n = 1%nat) by (destruct Hsub as [<-|[<-|[]]]; auto). subst n. rewrite H.
      pose proof (is_prefix_len _ _ Hpre) as Hl. rewrite S in Hl. cbn [length] in Hl.
      assert (length (skipn i l) = length (c :: t)) by (rewrite S; reflexivity).
      rewrite skipn_length in H0. cbn [length] in H0.
      rewrite IH by lia. rewrite Nat.add_1_r. rewrite (skipn_S l i c t S). reflexivity.
    + symmetry. apply pos_none. exact E.
Qed.

Lemma pos_app k a b : pos k (a ++ b) = pos k a ++ pos (k + length a) b.
Proof.
  revert k. induction a as [|c a IH]; intros k; cbn [app pos length].
  - rewrite Nat.add_0_r. reflexivity.
  - rewrite IH. replace (S k + length a)%nat with (k + S (length a))%nat by lia.
    destruct (closer c); reflexivity.
Qed.
Lemma pos_lt l : forall k p, In p (pos k l) -> (k <= p < k + length l)%nat.
Proof.
  induction l as [|c l IH]; intros k p H; cbn [pos length] in *; [destruct H|].
  destruct (closer c).
  - destruct H as [<-|H]; [lia|]. apply IH in H. lia.
  - apply IH in H. lia.
Qed.

(** ** dropping commas, with a context for what follows *)
Section WithSpace.
Context (isspace : Z -> bool) (SP : space_ok isspace).
Notation rstrip := (rstrip isspace).
Notation closers := (closers isspace).

Fixpoint next (b : bool) (s : text) : bool :=
  match s with
  | [] => b
  | c :: s' => if isspace c then next b s' else closer c
  end.
Fixpoint dropc (b : bool) (s : text) : text :=
  match s with
  | [] => []
  | c :: s' => if (c =? COMMA) && next b s' then dropc b s' else c :: dropc b s'
  end.
Lemma next_false s : next false s = next_closes isspace s.
Proof. induction s as [|c s IH]; cbn; [auto|]. rewrite IH. reflexivity. Qed.
Lemma dropc_false s : dropc false s = drop_trailing_commas isspace s.
Proof. induction s as [|c s IH]; cbn; [auto|]. rewrite IH, next_false. reflexivity. Qed.
Lemma next_app b s t : next b (s ++ t) = next (next b t) s.
Proof. induction s as [|c s IH]; cbn [app next]; [auto|]. rewrite IH. reflexivity. Qed.
Lemma dropc_app b s t : dropc b (s ++ t) = dropc (next b t) s ++ dropc b t.
Proof.
  induction s as [|c s IH]; cbn [app dropc]; [reflexivity|]. rewrite next_app, IH.
  destruct (_ && _)%bool; reflexivity.
Qed.

Definition blank (w : text) : Prop := forall c, In c w -> isspace c = true.
Lemma blank_next b w : blank w -> next b w = b.
Proof.
  induction w as [|c w IH]; intros H; cbn [next]; [auto|].
  rewrite (H c (or_introl eq_refl)). apply IH. intros x Hx. apply H. right; auto.
Qed.
Lemma blank_dropc b w : blank w -> dropc b w = w.
Proof.
  induction w as [|c w IH]; intros H; cbn [dropc]; [auto|].
  rewrite IH by (intros x Hx; apply H; right; auto).
  destruct (Z.eqb_spec c COMMA) as [->|]; [|reflexivity].
  specialize (H COMMA (or_introl eq_refl)). rewrite (sp_comma _ SP) in H. discriminate.
Qed.
Lemma blank_pos k w : blank w -> pos k w = [].
Proof.
  revert k. induction w as [|c w IH]; intros k H; cbn [pos]; [auto|].
  rewrite IH by (intros x Hx; apply H; right; auto).
  specialize (H c (or_introl eq_refl)). unfold closer.
  destruct (Z.eqb_spec c RBRACE) as [->|]; [rewrite (sp_rbrace _ SP) in H; discriminate|].
  destruct (Z.eqb_spec c RBRACKET) as [->|]; [rewrite (sp_rbracket _ SP) in H; discriminate|].
  reflexivity.
Qed.

Lemma rstrip_split s : exists w, s = rstrip s ++ w /\ blank w.
Proof.
  induction s as [|c s (w & E & B)]; cbn [JsonModel.rstrip].
  - exists []. split; [auto|]. intros c [].
  - destruct (rstrip s) as [|d r] eqn:R.
    + cbn [app] in E. subst w. destruct (isspace c) eqn:S.
      * exists (c :: s). split; [reflexivity|]. intros x [<-|Hx]; auto.
      * exists s. split; [reflexivity|auto].
    + exists w. split; [|auto]. rewrite E at 1. reflexivity.
Qed.
Lemma rstrip_end s : rstrip s = [] \/ exists u x, rstrip s = u ++ [x] /\ isspace x = false.
Proof.
  induction s as [|c s IH]; cbn [JsonModel.rstrip]; [auto|].
  destruct (rstrip s) as [|d r] eqn:R.
  - destruct (isspace c) eqn:S; [auto|]. right. exists [], c. auto.
  - right. destruct IH as [IH|(u & x & E & H)]; [discriminate|].
    exists (c :: u), x. rewrite E. auto.
Qed.
Lemma last_of_snoc {A} (u : list A) x : last_of (u ++ [x]) = Some x.
Proof.
  induction u as [|a u IH]; cbn [app last_of]; [auto|].
  destruct u; cbn [app] in *; auto.
Qed.
Lemma next_snoc b u x : isspace x = false -> next b (u ++ [x]) = next (closer x) u.
Proof. intros H. rewrite next_app. cbn [next]. rewrite H. reflexivity. Qed.

(** ** the closing-bracket loop of one line *)
Lemma closers_app l a b done last rm :
  closers l (a ++ b) done last rm =
  match closers l a done last rm with
  | Some (d, r) => closers l b d last r
  | None => None
  end.
Proof.
  revert done rm. induction a as [|loc a IH]; intros done rm; cbn [app JsonModel.closers]; [auto|].
  destruct (last_of (rstrip (firstn loc l))) as [c|].
  - destruct (c =? COMMA); apply IH.
  - destruct last as [k|]; [|apply IH]. destruct (last_of (nth k done [])) as [c|]; [|reflexivity].
    destruct (c =? COMMA); apply IH.
Qed.
Lemma closers_prefix l m locs done last rm :
  (forall p, In p locs -> (p <= length l)%nat) ->
  closers (l ++ m) locs done last rm = closers l locs done last rm.
Proof.
  revert done rm. induction locs as [|loc locs IH]; intros done rm H; cbn [JsonModel.closers]; [auto|].
  assert (E : firstn loc (l ++ m) = firstn loc l).
  { rewrite firstn_app. specialize (H loc (or_introl eq_refl)).
    replace (loc - length l)%nat with 0%nat by lia. cbn [firstn]. apply app_nil_r. }
  rewrite E. assert (H' : forall p, In p locs -> (p <= length l)%nat) by (intros p Hp; apply H; right; auto).
  destruct (last_of (rstrip (firstn loc l))) as [c|].
  - destruct (c =? COMMA); apply IH; auto.
  - destruct last as [k|]; [|apply IH; auto]. destruct (last_of (nth k done [])) as [c|]; [|reflexivity].
    destruct (c =? COMMA); apply IH; auto.
Qed.

(** positions increase and lie below a bound, [j] being already deleted *)
Inductive inc : nat -> list nat -> nat -> Prop :=
| inc_nil : forall j b, inc j [] b
| inc_cons : forall j p r b, (j <= p < b)%nat -> inc (S p) r b -> inc j (p :: r) b.

Lemma inc_weak j rm b j' b' : inc j rm b -> (j' <= j)%nat -> (b <= b')%nat -> inc j' rm b'.
Proof.
  intros H. revert j'. induction H as [|j p r b Hp H IH]; intros j' Hj Hb; constructor; [lia|].
  apply IH; lia.
Qed.
Lemma inc_snoc j rm b p : inc j rm b -> (b <= p)%nat -> (j <= p)%nat -> inc j (rm ++ [p]) (S p).
Proof.
  intros H. induction H as [|j q r b Hq H IH]; intros Hb Hj; cbn [app].
  - constructor; [lia|constructor].
  - constructor; [lia|]. apply IH; lia.
Qed.

Lemma delete_app rm : forall l m j,
  inc j rm (j + length l) -> delete_at (l ++ m) j rm = delete_at l j rm ++ m.
Proof.
  induction rm as [|p rm IH]; intros l m j H; cbn [delete_at]; [reflexivity|].
  inversion H as [|? ? ? ? Hp Hr]; subst.
  rewrite firstn_app, skipn_app. replace (p - j - length l)%nat with 0%nat by lia.
  replace (S (p - j) - length l)%nat with 0%nat by lia. change (firstn 0 m) with (@nil Z). change (skipn 0 m) with m. rewrite app_nil_r, app_assoc.
  apply IH. eapply inc_weak; [exact Hr|lia|]. rewrite app_length, firstn_length, skipn_length. lia.
Qed.
Lemma delete_length rm : forall l j,
  inc j rm (j + length l) -> length (delete_at l j rm) = (length l - length rm)%nat /\ (length rm <= length l)%nat.
Proof.
  induction rm as [|p rm IH]; intros l j H; cbn [delete_at length]; [lia|].
  inversion H as [|? ? ? ? Hp Hr]; subst.
  assert (L : length (firstn (p - j) l ++ skipn (S (p - j)) l) = (length l - 1)%nat)
    by (rewrite app_length, firstn_length, skipn_length; lia).
  destruct (IH (firstn (p - j) l ++ skipn (S (p - j)) l) (S j)) as [H1 H2].
  - eapply inc_weak; [exact Hr|lia|]. rewrite L. lia.
  - rewrite H1, L. rewrite L in H2. split; [|lia].
    destruct rm as [|p2 rm2]; [cbn [length]; lia|]. cbn [length] in *. lia.
Qed.
Lemma delete_snoc rm : forall l j p,
  delete_at l j (rm ++ [p]) =
  firstn (p - (j + length rm)) (delete_at l j rm) ++ skipn (S (p - (j + length rm))) (delete_at l j rm).
Proof.
  induction rm as [|q rm IH]; intros l j p; cbn [app delete_at length].
  - rewrite Nat.add_0_r. reflexivity.
  - rewrite IH. replace (S j + length rm)%nat with (j + S (length rm))%nat by lia. reflexivity.
Qed.

Definition fix_prev (done : list text) (last : option nat) : list text :=
  match last with
  | None => done
  | Some k => match last_of (nth k done []) with
              | Some c => if c =? COMMA then set_at done k (removelast (nth k done [])) else done
              | None => done
              end
  end.

Definition line_ok (l : text) : Prop := forall done last,
  (forall k, last = Some k -> nth k done [] <> []) ->
  exists rm, closers l (pos 0 l) done last [] =
               Some (if next false l then fix_prev done last else done, rm) /\
             inc 0 rm (length l) /\ delete_at l 0 rm = dropc false l.

Lemma last_of_none {A} (l : list A) : last_of l = None -> l = [].
Proof.
  induction l as [|a l IH]; cbn [last_of]; [auto|]. destruct l; [discriminate|].
  intros H. apply IH in H. discriminate.
Qed.

Lemma line_all l : line_ok l.
Proof.
  induction l as [l IHl] using (well_founded_induction
    (Wf_nat.well_founded_ltof _ (fun l : text => length l))).
  unfold Wf_nat.ltof in IHl.
  destruct (rev l) as [|c r] eqn:Erev.
  { assert (l = []) by (rewrite <- (rev_involutive l), Erev; reflexivity). subst l.
    intros done last _. exists []. split; [reflexivity|]. split; [constructor|reflexivity]. }
  assert (El : l = rev r ++ [c]) by (rewrite <- (rev_involutive l), Erev; reflexivity).
  clear Erev. remember (rev r) as s eqn:Es. clear Es r. subst l.
  assert (Hs : line_ok s) by (apply IHl; rewrite app_length; cbn [length]; lia).
  intros done last Hlast. rewrite pos_app. cbn [pos Nat.add].
  destruct (Hs done last Hlast) as (rm & C1 & I1 & D1).
  assert (Ple : forall p, In p (pos 0 s) -> (p <= length s)%nat)
    by (intros p Hp; apply pos_lt in Hp; lia).
  destruct (closer c) eqn:Cc.
  2:{ exists rm. rewrite app_nil_r, closers_prefix by auto. rewrite C1.
      assert (N : next false [c] = false) by (cbn [next]; destruct (isspace c); auto).
      rewrite next_app, N. split; [reflexivity|]. split.
      - eapply inc_weak; [exact I1|lia|]. rewrite app_length. lia.
      - rewrite delete_app by (eapply inc_weak; [exact I1|lia|lia]).
        rewrite dropc_app, N, D1. cbn [dropc next]. rewrite andb_false_r. reflexivity. }
  assert (Sc : isspace c = false).
  { unfold closer in Cc. apply orb_true_iff in Cc as [E|E]; apply Z.eqb_eq in E; subst c; apply SP. }
  assert (Nc : (c =? COMMA) = false).
  { destruct (Z.eqb_spec c COMMA) as [->|]; [discriminate|reflexivity]. }
  rewrite closers_app, closers_prefix, C1 by auto. cbn [JsonModel.closers].
  replace (firstn (length s) (s ++ [c])) with s
    by (rewrite firstn_app, Nat.sub_diag, firstn_all, app_nil_r; reflexivity).
  rewrite next_snoc by auto. rewrite Cc.
  assert (DC : dropc false (s ++ [c]) = dropc true s ++ [c]).
  { rewrite dropc_app. cbn [next dropc]. rewrite Sc, Cc, Nc. reflexivity. }
  rewrite DC. destruct (rstrip_split s) as (w & Ew & Bw).
  destruct (rstrip_end s) as [Er|(u & x & Er & Sx)].
  - (* nothing but white space before the bracket *)
    rewrite Er in *. cbn [last_of app] in *. subst s.
    rewrite (blank_next _ w Bw) in C1. rewrite (blank_next true w Bw), (blank_next false w Bw).
    rewrite (blank_pos 0 w Bw) in C1. cbn [JsonModel.closers] in C1. injection C1 as <-.
    exists []. split; [|split].
    + unfold fix_prev. destruct last as [k|]; [|reflexivity].
      destruct (last_of (nth k done [])) as [d|] eqn:L.
      * destruct (d =? COMMA); reflexivity.
      * apply last_of_none in L. exfalso. eapply Hlast; eauto.
    + constructor.
    + cbn [delete_at]. rewrite blank_dropc by auto. reflexivity.
  - (* something before it *)
    rewrite Er, last_of_snoc. rewrite Er in Ew.
    assert (NX : next true s = next false s).
    { rewrite Ew, !next_app, !(blank_next _ w Bw). cbn [next]. rewrite Sx. reflexivity. }
    rewrite NX. destruct (Z.eqb_spec x COMMA) as [->|Nx].
    + (* a trailing comma *)
      assert (Hu : line_ok u).
      { apply IHl. rewrite Ew, !app_length. cbn [length]. lia. }
      destruct (Hu done last Hlast) as (rm2 & C2 & I2 & D2).
      assert (Epos : pos 0 s = pos 0 u).
      { rewrite Ew, !pos_app. rewrite (blank_pos _ w Bw), app_nil_r. cbn [pos]. rewrite app_nil_r. reflexivity. }
      assert (rm2 = rm).
      { rewrite Epos in C1. rewrite Ew in C1 at 1. rewrite <- app_assoc in C1.
        rewrite closers_prefix in C1 by (intros p Hp; apply pos_lt in Hp; lia).
        rewrite C2 in C1. congruence. }
      subst rm2. exists (rm ++ [length u]).
      replace (length (u ++ [COMMA]) - 1)%nat with (length u) by (rewrite app_length; cbn [length]; lia).
      split; [reflexivity|]. split.
      * eapply inc_weak; [eapply inc_snoc; [exact I2|lia|lia]|lia|].
        rewrite Ew, !app_length. cbn [length]. lia.
      * assert (DL : delete_at (s ++ [c]) 0 rm = delete_at u 0 rm ++ COMMA :: w ++ [c]).
        { rewrite Ew, <- !app_assoc. cbn [app]. apply delete_app.
          eapply inc_weak; [exact I2|lia|lia]. }
        rewrite delete_snoc, DL. cbn [Nat.add].
        destruct (delete_length rm u 0 ltac:(eapply inc_weak; [exact I2|lia|lia])) as [L1 L2].
        replace (length u - length rm)%nat with (length (delete_at u 0 rm)) by lia.
        rewrite firstn_app, Nat.sub_diag, firstn_all, skipn_app. cbn [firstn].
        rewrite app_nil_r, skipn_all2 by lia.
        replace (S (length (delete_at u 0 rm)) - length (delete_at u 0 rm))%nat with 1%nat by lia.
        cbn [skipn app]. rewrite D2.
        rewrite Ew, !dropc_app, (blank_next true w Bw), (blank_dropc true w Bw).
        cbn [next dropc]. rewrite (sp_comma _ SP). cbn [andb Z.eqb closer orb].
        change (closer COMMA) with false. rewrite Z.eqb_refl. cbn [andb app].
        rewrite app_nil_r, <- app_assoc. reflexivity.
    + (* another character *)
      exists rm. assert (E : (x =? COMMA) = false) by lia.
      split; [reflexivity|]. split.
      * eapply inc_weak; [exact I1|lia|]. rewrite app_length. lia.
      * rewrite delete_app by (eapply inc_weak; [exact I1|lia|lia]). rewrite D1. f_equal.
        rewrite Ew, !dropc_app, !(blank_next _ w Bw), !(blank_dropc _ w Bw).
        cbn [next dropc]. rewrite Sx, E. reflexivity.
Qed.

(** ** the loop over the lines *)
Fixpoint nextL (b : bool) (ks : list text) : bool :=
  match ks with
  | [] => b
  | k :: r => next (nextL b r) k
  end.
Fixpoint fin (b : bool) (ks : list text) : list text :=
  match ks with
  | [] => []
  | k :: r => dropc (nextL b r) k :: fin b r
  end.
Lemma next_join b ks : next b (join_nl ks) = nextL b ks.
Proof.
  induction ks as [|k r IH]; [reflexivity|]. destruct r as [|k2 r]; [reflexivity|].
  change (join_nl (k :: k2 :: r)) with (k ++ NL :: join_nl (k2 :: r)).
  rewrite next_app. cbn [next]. rewrite (sp_nl _ SP), IH. reflexivity.
Qed.
Lemma join_fin b ks : join_nl (fin b ks) = dropc b (join_nl ks).
Proof.
  induction ks as [|k r IH]; [reflexivity|]. destruct r as [|k2 r]; [reflexivity|].
  change (join_nl (k :: k2 :: r)) with (k ++ NL :: join_nl (k2 :: r)).
  change (join_nl (fin b (k :: k2 :: r))) with
    (dropc (nextL b (k2 :: r)) k ++ NL :: join_nl (fin b (k2 :: r))).
  rewrite dropc_app. cbn [next]. rewrite (sp_nl _ SP), next_join, IH. reflexivity.
Qed.
Lemma nextL_snoc b ks k : nextL b (ks ++ [k]) = nextL (next b k) ks.
Proof. induction ks as [|k0 r IH]; cbn [app nextL]; [auto|]. rewrite IH. reflexivity. Qed.
Lemma fin_snoc b ks k : fin b (ks ++ [k]) = fin (next b k) ks ++ [dropc b k].
Proof.
  induction ks as [|k0 r IH]; cbn [app fin]; [reflexivity|]. rewrite IH, nextL_snoc. reflexivity.
Qed.
Lemma fin_length b ks : length (fin b ks) = length ks.
Proof. induction ks; cbn [fin length]; auto. Qed.

Definition bare (k : text) : Prop := k = [] \/ exists u x, k = u ++ [x] /\ isspace x = false.

Inductive lastne : list text -> option nat -> Prop :=
| ln_nil : lastne [] None
| ln_blank : forall ks o, lastne ks o -> lastne (ks ++ [[]]) o
| ln_full : forall ks o k, lastne ks o -> k <> [] -> lastne (ks ++ [k]) (Some (length ks)).

Lemma lastne_lt ks o k : lastne ks o -> o = Some k -> (k < length ks)%nat.
Proof.
  induction 1 as [|ks o H IH|ks o k0 H IH]; intros E.
  - discriminate.
  - rewrite app_length. specialize (IH E). cbn [length]. lia.
  - injection E as <-. rewrite app_length. cbn [length]. lia.
Qed.

Lemma dropc_snoc b u x : isspace x = false ->
  dropc b (u ++ [x]) = dropc (closer x) u ++ (if (x =? COMMA) && b then [] else [x]).
Proof.
  intros H. rewrite dropc_app. cbn [next dropc]. rewrite H. destruct (_ && _)%bool; reflexivity.
Qed.

Lemma set_at_app {A} (l m : list A) k v : (k < length l)%nat -> set_at (l ++ m) k v = set_at l k v ++ m.
Proof.
  revert k. induction l as [|a l IH]; intros k H; cbn [length] in H; [lia|].
  destruct k as [|k]; [reflexivity|]. cbn [app set_at]. f_equal. apply IH. lia.
Qed.
Lemma set_at_end {A} (l : list A) a v : set_at (l ++ [a]) (length l) v = l ++ [v].
Proof. induction l as [|b l IH]; [reflexivity|]. cbn [app length set_at]. f_equal. exact IH. Qed.

Lemma fix_prev_app d m last :
  (forall k, last = Some k -> (k < length d)%nat) -> fix_prev (d ++ m) last = fix_prev d last ++ m.
Proof.
  intros H. unfold fix_prev. destruct last as [k|]; [|reflexivity].
  specialize (H k eq_refl). rewrite app_nth1 by auto.
  destruct (last_of (nth k d [])) as [c|]; [|reflexivity].
  destruct (c =? COMMA); [|reflexivity]. apply set_at_app; auto.
Qed.

Lemma fix_fin ks o : lastne ks o -> Forall bare ks -> fix_prev (fin false ks) o = fin true ks.
Proof.
  induction 1 as [|ks o H IH|ks o k H IH Hk]; intros F.
  - reflexivity.
  - apply Forall_app in F as [F _]. rewrite !fin_snoc. cbn [next dropc].
    rewrite fix_prev_app by (intros k E; rewrite fin_length; eapply lastne_lt; eauto).
    rewrite IH by auto. reflexivity.
  - apply Forall_app in F as [_ F]. inversion F as [|? ? Hb _]; subst.
    destruct Hb as [Hb|(u & x & -> & Sx)]; [congruence|].
    rewrite !fin_snoc, !next_snoc by auto. rewrite !dropc_snoc by auto.
    rewrite andb_false_r, andb_true_r. unfold fix_prev.
    rewrite <- (fin_length (next (closer x) u) ks).
    rewrite nth_middle, last_of_snoc. destruct (x =? COMMA); [|reflexivity].
    rewrite set_at_end, removelast_last, app_nil_r. reflexivity.
Qed.

Lemma rstrip_bare s : bare (rstrip s).
Proof. unfold bare. destruct (rstrip_end s) as [H|(u & x & H & S)]; eauto 6. Qed.

Lemma dropc_nonempty b k : bare k -> k <> [] -> b = false -> dropc b k <> [].
Proof.
  intros [H|(u & x & -> & Sx)] Hne ->; [congruence|]. rewrite dropc_snoc by auto.
  rewrite andb_false_r. destruct (dropc (closer x) u); discriminate.
Qed.

Lemma last_line_nonempty ks o k : lastne ks o -> Forall bare ks -> o = Some k -> nth k (fin false ks) [] <> [].
Proof.
  induction 1 as [|ks o H IH|ks o k0 H IH Hk]; intros F E.
  - discriminate.
  - apply Forall_app in F as [F _]. rewrite fin_snoc. cbn [next dropc].
    pose proof (lastne_lt _ _ _ H E). rewrite app_nth1 by (rewrite fin_length; auto). auto.
  - apply Forall_app in F as [_ F]. inversion F as [|? ? Hb _]; subst. injection E as <-.
    rewrite fin_snoc. rewrite <- (fin_length (next false k0) ks), nth_middle.
    apply dropc_nonempty; auto.
Qed.

Lemma clean_lines_spec todo : forall ks last,
  lastne ks last -> Forall bare ks ->
  clean_lines isspace todo (fin false ks) last =
  Some (fin false (ks ++ map (bare_line isspace) todo)).
Proof.
  induction todo as [|l0 todo IH]; intros ks last HL HB; cbn [clean_lines map].
  - rewrite app_nil_r. reflexivity.
  - rewrite remove_comment_spec. fold (bare_line isspace l0).
    remember (bare_line isspace l0) as l eqn:El.
    assert (Bl : bare l) by (subst l; apply rstrip_bare). clear El.
    replace (ks ++ l :: map (bare_line isspace) todo)
      with ((ks ++ [l]) ++ map (bare_line isspace) todo) by (rewrite <- app_assoc; reflexivity).
    assert (HB' : Forall bare (ks ++ [l])) by (apply Forall_app; split; auto).
    destruct l as [|c l].
    { rewrite <- (IH (ks ++ [[]]) last); [|constructor; exact HL|exact HB'].
      rewrite fin_snoc. reflexivity. }
    remember (c :: l) as L eqn:EL.
    assert (NE : L <> []) by (subst L; discriminate). clear EL c l.
    rewrite find_all_closers by lia. cbn [skipn].
    destruct (line_all L (fin false ks) last) as (rm & C & _ & D).
    { intros k E. eapply last_line_nonempty; eauto. }
    rewrite C, D.
    assert (E1 : (if next false L then fix_prev (fin false ks) last else fin false ks)
                 = fin (next false L) ks).
    { destruct (next false L); [apply fix_fin; auto|reflexivity]. }
    rewrite E1.
    pose proof (dropc_nonempty false L Bl NE eq_refl) as NE'.
    assert (M : match dropc false L with [] => last | _ :: _ => Some (length (fin false ks)) end
                = Some (length ks)).
    { rewrite fin_length. destruct (dropc false L); [congruence|reflexivity]. }
    rewrite M. rewrite <- (IH (ks ++ [L]) (Some (length ks))); [|econstructor; eauto|exact HB'].
    rewrite fin_snoc. reflexivity.
Qed.

Lemma cleaned_relaxed s : cleaned isspace s = Some (relaxed isspace s).
Proof.
  unfold cleaned. change (@nil text) with (fin false []).
  rewrite (clean_lines_spec (split_nl s) [] None) by constructor. cbn [option_map app].
  unfold relaxed. rewrite join_fin, dropc_false. reflexivity.
Qed.
End WithSpace.
