(** C91: times in other notations become ISO 8601. *)
From Verif Require Import TabModel TabProps SelTextModel SelTextProps IsoModel.
From Coq Require Import String Ascii List Bool Arith Lia ZifyBool ZifyNat.
Import ListNotations.
Local Open Scope nat_scope.

(** ** notation *)
Definition dig (d : nat) : Prop := d < 10.
Definition digs (n : nat) (l : list nat) : Prop := length l = n /\ Forall dig l.
(** Year, month, day; then hours, perhaps minutes, perhaps seconds; the last of them may have one digit only. *)
Record date := Date { year : list nat; month : list nat; day : list nat }.
Definition date_ok (d : date) : Prop := digs 4 (year d) /\ digs 2 (month d) /\ digs 2 (day d).
Definition tx := TabProps.text.
Definition colon (a b : list ascii) : list ascii := (a ++ ":"%char :: b)%list.
Definition date_text (sep : ascii) (d : date) : list ascii := (tx (year d) ++ sep :: tx (month d) ++ sep :: tx (day d))%list.
Inductive clock := H1 (h : list nat) | H2 (h m : list nat) | H3 (h m s : list nat) | H4 (h m s : list nat) (f : list nat).
Definition short (l : list nat) : Prop := digs 1 l \/ digs 2 l.
Definition clock_ok (c : clock) : Prop :=
  match c with
  | H1 h => short h
  | H2 h m => digs 2 h /\ short m
  | H3 h m s => digs 2 h /\ digs 2 m /\ short s
  | H4 h m s f => digs 2 h /\ digs 2 m /\ short s /\ Forall dig f
  end.
Definition two (l : list nat) : list nat := if (length l =? 1) then 0 :: l else l.
Definition clock_text (pad : list nat -> list nat) (c : clock) : list ascii :=
  match c with
  | H1 h => tx (pad h)
  | H2 h m => colon (tx h) (tx (pad m))
  | H3 h m s => colon (tx h) (colon (tx m) (tx (pad s)))
  | H4 h m s f => (colon (tx h) (colon (tx m) (tx (pad s))) ++ "."%char :: tx f)%list
  end.
(** What people write: YYYY:MM:DD:hh:mm:s.sss, with blanks around and UT before, in small letters or capitals. *)
Definition written (d : date) (c : clock) : list ascii := colon (date_text ":" d) (clock_text (fun l => l) c).
(** ISO 8601. *)
Definition iso (d : date) (c : clock) : list ascii := (date_text "-" d ++ "T"%char :: clock_text two c)%list.
Definition ut (c : ascii) : bool := is c "u" || is c "t" || is c "U" || is c "T".

(** ** characters *)
Definition tc (c : ascii) : bool := is_digit c || is c ":" || is c "." || is c "-".
Lemma tc_facts c : tc c = true -> upper c = c /\ is_space c = false /\ (is c "U" || is c "T") = false.
Proof. destruct c as [[] [] [] [] [] [] [] []]; intros H; try discriminate H; repeat split. Qed.
Lemma ut_facts c : ut c = true -> (is (upper c) "U" || is (upper c) "T") = true /\ is_space c = false.
Proof. destruct c as [[] [] [] [] [] [] [] []]; intros H; try discriminate H; split; reflexivity. Qed.
Lemma dig_char d : dig d -> is_digit (char_of d) = true /\ is (char_of d) ":" = false /\ is (char_of d) "." = false.
Proof. unfold dig. intros H. do 10 (destruct d as [|d]; [repeat split|]). lia. Qed.
Lemma tx_digits l : Forall dig l -> forallb is_digit (tx l) = true.
Proof. apply text_digits. Qed.
Lemma tx_none l : Forall dig l -> (forall c, In c (tx l) -> is c ":" = false) /\ (forall c, In c (tx l) -> is c "." = false).
Proof. intros H. split; intros c Hc; unfold tx, TabProps.text in Hc; apply in_map_iff in Hc; destruct Hc as [d [<- Hd]]; rewrite Forall_forall in H; apply (dig_char d (H d Hd)). Qed.
Lemma tx_tc l : Forall dig l -> forallb tc (tx l) = true.
Proof. intros H. pose proof (tx_digits l H) as D. rewrite forallb_forall in D |- *. intros c Hc. unfold tc. rewrite (D c Hc). reflexivity. Qed.
Lemma tx_length l : length (tx l) = length l.
Proof. apply map_length. Qed.
Lemma clean_text p u t : forallb ut u = true -> t <> [] -> forallb tc t = true -> clean (padded p (u ++ t)) = t.
Proof.
  intros Hu Ht Ht'. unfold clean. assert (Up : map upper t = t). { rewrite <- (map_id t) at 2. apply map_ext_in. intros c Hc. rewrite forallb_forall in Ht'. apply (tc_facts c (Ht' c Hc)). }
  rewrite strip_padded.
  - rewrite map_app, Up. destruct (take_all (fun c => is c "U" || is c "T") (map upper u) t) as [_ ->].
    + rewrite forallb_forall in Hu |- *. intros c Hc. apply in_map_iff in Hc. destruct Hc as [c' [<- Hc]]. apply ut_facts, Hu, Hc.
    + destruct t as [|c t]; [congruence|]. cbn [forallb] in Ht'. apply andb_prop in Ht' as [Hc _]. cbn [skip]. destruct (tc_facts c Hc) as [_ [_ ->]]. reflexivity.
  - assert (N : forall c, In c (u ++ t) -> is_space c = false). { intros c Hc. apply in_app_or in Hc. rewrite forallb_forall in Hu, Ht'. destruct Hc as [Hc|Hc]; [apply (ut_facts c (Hu c Hc))|apply (tc_facts c (Ht' c Hc))]. }
    split.
    + destruct (u ++ t)%list as [|c r]; [exact I|]. apply N. left; reflexivity.
    + destruct (rev (u ++ t)) as [|c r] eqn:E; [exact I|]. apply N. rewrite in_rev, E. left; reflexivity.
Qed.
(** ** splitting *)
Lemma split_colon a b : Forall dig a -> split_on ":" (colon (tx a) b) = tx a :: split_on ":" b.
Proof. intros H. apply split_on_app; [apply tx_none, H|reflexivity]. Qed.
Lemma split_last a : Forall dig a -> split_on ":" (tx a) = [tx a].
Proof. intros H. apply split_on_none, tx_none, H. Qed.
Lemma split_frac a f : Forall dig a -> Forall dig f -> split_on ":" (tx a ++ "."%char :: tx f) = [(tx a ++ "."%char :: tx f)%list].
Proof. intros Ha Hf. apply split_on_none. intros c Hc. apply in_app_or in Hc. destruct Hc as [Hc|[<-|Hc]]; [apply (proj1 (tx_none a Ha)), Hc|reflexivity|apply (proj1 (tx_none f Hf)), Hc]. Qed.
Lemma dot_tx a : Forall dig a -> replace "." ":" (tx a) = tx a.
Proof. intros H. apply replace_none, tx_none, H. Qed.
Lemma dot_colon a b : Forall dig a -> replace "." ":" (colon (tx a) b) = colon (tx a) (replace "." ":" b).
Proof. intros H. unfold colon. rewrite replace_app, dot_tx by exact H. reflexivity. Qed.
Lemma dot_frac a f : Forall dig a -> Forall dig f -> replace "." ":" (tx a ++ "."%char :: tx f) = colon (tx a) (tx f).
Proof. intros Ha Hf. rewrite replace_app, dot_tx by exact Ha. unfold colon. f_equal. change (replace "." ":" ("."%char :: tx f)) with (":"%char :: replace "." ":" (tx f)). rewrite dot_tx by exact Hf. reflexivity. Qed.
Lemma digits_n_tx n l : digs n l -> digits_n n (tx l) = true.
Proof. intros [L D]. unfold digits_n. rewrite tx_length, L, Nat.eqb_refl, tx_digits by exact D. reflexivity. Qed.
Lemma last_ok_tx l : short l -> last_ok (tx l) = true.
Proof.
  intros H. assert (D : Forall dig l) by (destruct H as [[_ H]|[_ H]]; exact H). unfold last_ok. destruct (take_all is_digit (tx l) [] (tx_digits l D)) as [T S]. rewrite app_nil_r in T, S. rewrite T, S. cbn [take skip]. rewrite app_nil_r, tx_length.
  destruct H as [[-> _]|[-> _]]; reflexivity.
Qed.
Lemma last_ok_frac l f : short l -> Forall dig f -> last_ok (tx l ++ "."%char :: tx f) = true.
Proof.
  intros H Hf. assert (D : Forall dig l) by (destruct H as [[_ H]|[_ H]]; exact H). unfold last_ok. destruct (take_all is_digit (tx l) ("."%char :: tx f) (tx_digits l D)) as [-> ->]. cbn [take skip]. change (is_digit ".") with false. cbn iota. rewrite app_nil_r, tx_length, tx_digits by exact Hf.
  destruct H as [[-> _]|[-> _]]; reflexivity.
Qed.
Lemma zfill_two l : short l -> zfill 2 (tx l) = tx (two l).
Proof. intros H. unfold zfill, two. rewrite tx_length. destruct H as [[-> _]|[-> _]]; reflexivity. Qed.
Lemma zfill_same n l : digs n l -> zfill n (tx l) = tx l.
Proof. intros [L _]. unfold zfill. rewrite tx_length, L, Nat.sub_diag. reflexivity. Qed.
Lemma digs_short l : digs 2 l -> short l.
Proof. intros H. right. exact H. Qed.
Lemma two_same l : digs 2 l -> two l = l.
Proof. intros [L _]. unfold two. rewrite L. reflexivity. Qed.
(* the first ten characters are the date *)
Lemma first_ten d rest : date_ok d -> firstn 10 (colon (date_text ":" d) rest) = date_text ":" d /\ skipn 11 (colon (date_text ":" d) rest) = rest /\ replace ":" "-" (date_text ":" d) = date_text "-" d.
Proof.
  intros [[Ly Dy] [[Lm Dm] [Ld Dd]]]. assert (L : length (date_text ":" d) = 10). { unfold date_text. repeat (rewrite app_length || cbn [length]). rewrite !tx_length, Ly, Lm, Ld. reflexivity. }
  repeat split.
  - unfold colon. rewrite firstn_app, L, Nat.sub_diag, firstn_O, app_nil_r. rewrite <- L. apply firstn_all.
  - unfold colon. rewrite skipn_app, L. rewrite (skipn_all2 (date_text ":" d)) by lia. reflexivity.
  - unfold date_text. rewrite replace_app, (replace_none _ _ (tx (year d))) by (apply tx_none; exact Dy).
    assert (K : forall x, replace ":" "-" (":"%char :: x) = "-"%char :: replace ":" "-" x) by reflexivity. rewrite K, replace_app, K. rewrite (replace_none _ _ (tx (month d))) by (apply tx_none; exact Dm). rewrite (replace_none _ _ (tx (day d))) by (apply tx_none; exact Dd). reflexivity.
Qed.
Lemma written_colons d c : written d c = colon (tx (year d)) (colon (tx (month d)) (colon (tx (day d)) (clock_text (fun l => l) c))).
Proof. unfold written, date_text, colon. rewrite <- !app_assoc. cbn [app]. rewrite <- !app_assoc. reflexivity. Qed.

Lemma short_dig l : short l -> Forall dig l.
Proof. intros [[_ H]|[_ H]]; exact H. Qed.
Lemma clock_tc c : clock_ok c -> forallb tc (clock_text (fun l => l) c) = true.
Proof.
  destruct c as [h|h m|h m s|h m s f]; cbn [clock_ok clock_text]; intros H.
  - apply tx_tc, short_dig, H.
  - destruct H as [[_ Hh] Hm]. unfold colon. rewrite forallb_app. cbn [forallb]. rewrite !tx_tc by (first [exact Hh|apply short_dig, Hm]). reflexivity.
  - destruct H as [[_ Hh] [[_ Hm] Hs]]. unfold colon. rewrite forallb_app. cbn [forallb]. rewrite forallb_app. cbn [forallb]. rewrite !tx_tc by (first [exact Hh|exact Hm|apply short_dig, Hs]). reflexivity.
  - destruct H as [[_ Hh] [[_ Hm] [Hs Hf]]]. unfold colon. rewrite !forallb_app. cbn [forallb]. rewrite !forallb_app. cbn [forallb]. rewrite !tx_tc by (first [exact Hh|exact Hm|exact Hf|apply short_dig, Hs]). reflexivity.
Qed.
Lemma date_tc d : date_ok d -> forallb tc (date_text ":" d) = true.
Proof. intros [[_ Hy] [[_ Hm] [_ Hd]]]. unfold date_text. rewrite forallb_app. cbn [forallb]. rewrite forallb_app. cbn [forallb]. rewrite !tx_tc by assumption. reflexivity. Qed.
Lemma written_tc d c : date_ok d -> clock_ok c -> forallb tc (written d c) = true.
Proof. intros Hd Hc. unfold written, colon. rewrite forallb_app. cbn [forallb]. rewrite date_tc, clock_tc by assumption. reflexivity. Qed.
Lemma colon_ne a b : colon a b <> [].
Proof. unfold colon. destruct a; discriminate. Qed.
(* the parts of the clock, as split at the colons, and at the colons and the dot *)
Definition parts (c : clock) : list (list ascii) :=
  match c with H1 h => [tx h] | H2 h m => [tx h; tx m] | H3 h m s => [tx h; tx m; tx s] | H4 h m s f => [tx h; tx m; (tx s ++ "."%char :: tx f)%list] end.
Definition all_parts (c : clock) : list (list ascii) :=
  match c with H1 h => [tx h] | H2 h m => [tx h; tx m] | H3 h m s => [tx h; tx m; tx s] | H4 h m s f => [tx h; tx m; tx s; tx f] end.
Lemma colon_app a b c : (colon a b ++ c)%list = colon a (b ++ c).
Proof. unfold colon. rewrite <- app_assoc. reflexivity. Qed.
Lemma split_clock c : clock_ok c -> split_on ":" (clock_text (fun l => l) c) = parts c.
Proof.
  destruct c as [h|h m|h m s|h m s f]; cbn [clock_ok clock_text parts]; intros H.
  - apply split_last, short_dig, H.
  - destruct H as [[_ Hh] Hm]. rewrite split_colon, split_last by (first [exact Hh|apply short_dig, Hm]). reflexivity.
  - destruct H as [[_ Hh] [[_ Hm] Hs]]. rewrite !split_colon, split_last by (first [exact Hh|exact Hm|apply short_dig, Hs]). reflexivity.
  - destruct H as [[_ Hh] [[_ Hm] [Hs Hf]]]. rewrite !colon_app, !split_colon, split_frac by (first [exact Hh|exact Hm|exact Hf|apply short_dig, Hs]). reflexivity.
Qed.
Lemma split_clock_all c : clock_ok c -> split_on ":" (replace "." ":" (clock_text (fun l => l) c)) = all_parts c.
Proof.
  destruct c as [h|h m|h m s|h m s f]; cbn [clock_ok clock_text all_parts]; intros H.
  - rewrite dot_tx by (apply short_dig, H). apply split_last, short_dig, H.
  - destruct H as [[_ Hh] Hm]. rewrite dot_colon, dot_tx, split_colon, split_last by (first [exact Hh|apply short_dig, Hm]). reflexivity.
  - destruct H as [[_ Hh] [[_ Hm] Hs]]. rewrite !dot_colon, dot_tx, !split_colon, split_last by (first [exact Hh|exact Hm|apply short_dig, Hs]). reflexivity.
  - destruct H as [[_ Hh] [[_ Hm] [Hs Hf]]]. rewrite !colon_app, !dot_colon, dot_frac, !split_colon, split_last by (first [exact Hh|exact Hm|exact Hf|apply short_dig, Hs]). reflexivity.
Qed.
Lemma full_written d c : date_ok d -> clock_ok c -> full_match (written d c) = true.
Proof.
  intros [Hy [Hm Hd]] Hc. unfold full_match. rewrite written_colons, !split_colon, split_clock by (first [exact Hc|apply Hy|apply Hm|apply Hd]). rewrite digits_n_tx by exact Hy.
  destruct c as [h|h m|h m s|h m s f]; cbn [clock_ok parts] in Hc |- *; cbn [length Nat.leb andb removelast last forallb]; rewrite !(digits_n_tx 2) by tauto; [rewrite last_ok_tx by tauto|rewrite last_ok_tx by tauto|rewrite last_ok_tx by tauto|rewrite last_ok_frac by tauto]; reflexivity.
Qed.
Lemma join_date d l : date_ok d -> l <> [] -> join (tx (year d) :: tx (month d) :: tx (day d) :: l) = colon (date_text ":" d) (join l).
Proof. intros _ Hl. destruct l as [|p l]; [congruence|]. cbn [join]. unfold colon, date_text. rewrite <- !app_assoc. cbn [app]. rewrite <- !app_assoc. reflexivity. Qed.

Definition fin (x : list ascii) : list ascii := (replace ":" "-" (firstn 10 x) ++ "T"%char :: skipn 11 x)%list.
Lemma rewrite_parts t y r : split_on ":" (replace "." ":" t) = y :: r -> rewrite_full t = fin (join (zfill 4 y :: map (zfill 2) (firstn 5 r)) ++ match skipn 5 r with f :: _ => "."%char :: f | [] => [] end).
Proof. intros H. unfold rewrite_full. rewrite H. reflexivity. Qed.
Lemma fin_date d l f : date_ok d -> l <> [] -> fin (join (tx (year d) :: tx (month d) :: tx (day d) :: l) ++ f) = (date_text "-" d ++ "T"%char :: join l ++ f)%list.
Proof. intros Hd Hl. unfold fin. rewrite join_date by assumption. rewrite colon_app. destruct (first_ten d (join l ++ f) Hd) as [E1 [E2 E3]]. rewrite E1, E2, E3. reflexivity. Qed.

(** A time with a date and hours, minutes, seconds and a fraction, as far as they are there, becomes the same in ISO 8601. *)
Theorem C91_time : forall valid p u d c, forallb ut u = true -> date_ok d -> clock_ok c ->
  isotime1 valid (padded p (u ++ written d c)) = if valid (iso d c) then Some (iso d c) else None.
Proof.
  intros valid p u d c Hu Hd Hc. unfold isotime1. cbv zeta. rewrite clean_text by (first [exact Hu|apply colon_ne|apply written_tc; assumption]). rewrite full_written by assumption.
  assert (R : rewrite_full (written d c) = iso d c); [|rewrite R; reflexivity].
  pose proof Hd as [Hy [Hm Hdd]]. erewrite rewrite_parts by (rewrite written_colons, !dot_colon, !split_colon, split_clock_all by (first [exact Hc|apply Hy|apply Hm|apply Hdd]); reflexivity).
  pose proof (fun l f => fin_date d l f Hd) as K.
  unfold iso. rewrite zfill_same by exact Hy.
  destruct c as [h|h m|h m s|h m s f]; cbn [clock_ok all_parts clock_text] in Hc |- *; cbn [firstn skipn map]; rewrite (zfill_same 2 (month d)) by exact Hm; rewrite (zfill_same 2 (day d)) by exact Hdd.
  - rewrite K by discriminate. cbn [join]. rewrite app_nil_r, zfill_two by exact Hc. reflexivity.
  - rewrite K by discriminate. cbn [join]. rewrite app_nil_r, (zfill_same 2 h), zfill_two by tauto. reflexivity.
  - rewrite K by discriminate. cbn [join]. rewrite app_nil_r, (zfill_same 2 h), (zfill_same 2 m), zfill_two by tauto. reflexivity.
  - rewrite K by discriminate. cbn [join]. rewrite (zfill_same 2 h), (zfill_same 2 m), zfill_two by tauto. reflexivity.
Qed.
Print Assumptions C91_time.
(** So does a date alone. *)
Theorem C91_date : forall valid p u d, forallb ut u = true -> date_ok d ->
  isotime1 valid (padded p (u ++ date_text ":" d)) = if valid (date_text "-" d) then Some (date_text "-" d) else None.
Proof.
  intros valid p u d Hu Hd. unfold isotime1. cbv zeta. rewrite clean_text; [|exact Hu|destruct (year d) eqn:E; [destruct Hd as [[L _] _]; rewrite E in L; discriminate L|unfold date_text; rewrite E; discriminate]|apply date_tc, Hd].
  pose proof Hd as [Hy [Hm Hdd]]. assert (S : split_on ":" (date_text ":" d) = [tx (year d); tx (month d); tx (day d)]).
  { change (date_text ":" d) with (colon (tx (year d)) (colon (tx (month d)) (tx (day d)))). rewrite !split_colon, split_last by (first [apply Hy|apply Hm|apply Hdd]). reflexivity. }
  unfold full_match, date_match. rewrite S. cbn [length Nat.leb andb]. rewrite andb_false_r. cbn [andb]. rewrite digits_n_tx, !(digits_n_tx 2) by assumption. cbn [andb]. destruct (first_ten d [] Hd) as [_ [_ ->]]. reflexivity.
Qed.
Print Assumptions C91_date.
Lemma split_in d s : is d d = true -> forall c, In c s -> is c d = false -> exists p, In p (split_on d s) /\ In c p.
Proof.
  intros E. induction s as [|a s IH]; intros c Hc N; [destruct Hc|]. cbn [split_on]. destruct (is a d) eqn:A.
  - destruct Hc as [->|Hc]; [congruence|]. destruct (IH c Hc N) as [p [Hp Hcp]]. exists p. split; [right; exact Hp|exact Hcp].
  - destruct (split_on d s) as [|q qs] eqn:Q.
    + destruct Hc as [->|Hc]; [exists [c]; split; left; reflexivity|]. destruct (IH c Hc N) as [p [[] _]].
    + destruct Hc as [->|Hc]; [exists (c :: q); split; left; reflexivity|]. destruct (IH c Hc N) as [p [[->|Hp] Hcp]]; [exists (a :: p); split; [left; reflexivity|right; exact Hcp]|exists p; split; [right; exact Hp|exact Hcp]].
Qed.
Lemma digits_no n s : digits_n n s = true -> ~ In "-"%char s.
Proof. intros H Hc. unfold digits_n in H. apply andb_prop in H as [_ H]. rewrite forallb_forall in H. specialize (H _ Hc). discriminate H. Qed.
Lemma last_no s : last_ok s = true -> ~ In "-"%char s.
Proof.
  intros H Hc. unfold last_ok in H. apply andb_prop in H as [_ H]. assert (S : In "-"%char (skip is_digit s)) by (clear H; induction s as [|a s IH]; [destruct Hc|]; cbn [skip]; destruct Hc as [->|Hc]; [left; reflexivity|]; destruct (is_digit a); [apply IH, Hc|right; exact Hc]).
  destruct (skip is_digit s) as [|a r]; [destruct S|]. apply andb_prop in H as [Ha H]. destruct S as [->|S]; [discriminate Ha|]. rewrite forallb_forall in H. specialize (H _ S). discriminate H.
Qed.
Lemma removelast_last_in {A} (l : list A) d x : In x l -> In x (removelast l) \/ x = last l d.
Proof. intros H. destruct l as [|a l] using rev_ind; [destruct H|]. rewrite removelast_last, last_last. apply in_app_or in H. destruct H as [H|[H|[]]]; [left; exact H|right; congruence]. Qed.
Lemma other : forall valid s, In "-"%char s -> isotime1 valid s = if valid (clean s) then Some (clean s) else None.
Proof.
  intros valid s Hs. unfold isotime1. cbv zeta. assert (M : In "-"%char (clean s)).
  { assert (K : forall p l, p "-"%char = false -> In "-"%char l -> In "-"%char (skip p l)). { intros p l Hp. induction l as [|a l IH]; intros Hl; [destruct Hl|]. cbn [skip]. destruct Hl as [->|Hl]; [rewrite Hp; left; reflexivity|]. destruct (p a); [apply IH, Hl|right; exact Hl]. }
    unfold clean. apply K; [reflexivity|]. apply in_map_iff. exists "-"%char. split; [reflexivity|]. unfold strip. rewrite <- in_rev. apply K; [reflexivity|]. rewrite <- in_rev. apply K; [reflexivity|exact Hs]. }
  destruct (split_in ":" (clean s) eq_refl "-"%char M eq_refl) as [p [Hp Hc]].
  assert (F : full_match (clean s) = false).
  { unfold full_match. destruct (split_on ":" (clean s)) as [|y r]; [reflexivity|]. destruct (digits_n 4 y && _ && _ && _) eqn:E; [exfalso|reflexivity]. apply andb_prop in E as [E E4]. apply andb_prop in E as [E E3]. apply andb_prop in E as [E1 _].
    destruct Hp as [->|Hp]; [eapply digits_no; eassumption|]. destruct (removelast_last_in r [] p Hp) as [Hr| ->]; [rewrite forallb_forall in E3; eapply digits_no; [apply (E3 p Hr)|exact Hc]|eapply last_no; eassumption]. }
  assert (D : date_match (clean s) = false).
  { unfold date_match. destruct (split_on ":" (clean s)) as [|a [|b [|e [|g l]]]]; try reflexivity. destruct (digits_n 4 a && digits_n 2 b && digits_n 2 e) eqn:E; [exfalso|reflexivity]. apply andb_prop in E as [E E3]. apply andb_prop in E as [E1 E2].
    destruct Hp as [<-|[<-|[<-|[]]]]; [exact (digits_no _ _ E1 Hc)|exact (digits_no _ _ E2 Hc)|exact (digits_no _ _ E3 Hc)]. }
  rewrite F, D. reflexivity.
Qed.
Definition small (c : ascii) : Prop := (97 <= nat_of_ascii c <= 122)%nat.
Lemma plain_facts c : c <> " "%char -> ~ small c -> upper c = c /\ is_space c = false.
Proof.
  intros Hs Hl. unfold upper, small in *. change (code c) with (nat_of_ascii c). split.
  - destruct (97 <=? nat_of_ascii c) eqn:A; [|reflexivity]. destruct (nat_of_ascii c <=? 122) eqn:B; [|reflexivity]. exfalso. apply Hl. lia.
  - destruct c as [[] [] [] [] [] [] [] []]; first [reflexivity|exfalso; apply Hs; reflexivity].
Qed.
Lemma clean_plain p u c t : forallb ut u = true -> (forall a, In a (c :: t) -> a <> " "%char /\ ~ small a) -> c <> "U"%char -> c <> "T"%char -> clean (padded p (u ++ c :: t)) = c :: t.
Proof.
  intros Hu Ht NU NT. unfold clean. assert (Up : map upper (c :: t) = c :: t). { rewrite <- (map_id (c :: t)) at 2. apply map_ext_in. intros a Ha. destruct (Ht a Ha). apply plain_facts; assumption. }
  rewrite strip_padded.
  - rewrite map_app, Up. destruct (take_all (fun c => is c "U" || is c "T") (map upper u) (c :: t)) as [_ ->].
    + rewrite forallb_forall in Hu |- *. intros a Ha. apply in_map_iff in Ha. destruct Ha as [a' [<- Ha]]. apply ut_facts, Hu, Ha.
    + destruct c as [[] [] [] [] [] [] [] []]; first [reflexivity|exfalso; apply NU; reflexivity|exfalso; apply NT; reflexivity].
  - assert (N : forall a, In a (u ++ c :: t) -> is_space a = false). { intros a Ha. apply in_app_or in Ha. rewrite forallb_forall in Hu. destruct Ha as [Ha|Ha]; [apply (ut_facts a (Hu a Ha))|destruct (Ht a Ha); apply plain_facts; assumption]. }
    split.
    + destruct (u ++ c :: t)%list as [|a r]; [exact I|]. apply N. left; reflexivity.
    + destruct (rev (u ++ c :: t)) as [|a r] eqn:E; [exact I|]. apply N. rewrite in_rev, E. left; reflexivity.
Qed.
(** A text with a minus sign, such as one in ISO 8601 already, is not rewritten: only blanks around it and UT before it are taken off. *)
Theorem C91_other : forall valid p u c t, forallb ut u = true -> In "-"%char (c :: t) -> (forall a, In a (c :: t) -> a <> " "%char /\ ~ small a) -> c <> "U"%char -> c <> "T"%char ->
  isotime1 valid (padded p (u ++ c :: t)) = if valid (c :: t) then Some (c :: t) else None.
Proof.
  intros valid p u c t Hu Hm Ht NU NT. rewrite other by (unfold padded; apply in_or_app; right; apply in_or_app; left; apply in_or_app; right; exact Hm). rewrite clean_plain by assumption. reflexivity.
Qed.
Print Assumptions C91_other.
(** A time in ISO 8601 stays as it is, so that the function can be used again on what it gave. *)
Theorem C91_again : forall valid d c, date_ok d -> clock_ok c -> isotime1 valid (iso d c) = if valid (iso d c) then Some (iso d c) else None.
Proof.
  intros valid d c Hd Hc. rewrite other.
  2:{ unfold iso, date_text. apply in_or_app. left. apply in_or_app. right. left. reflexivity. }
  assert (E : clean (iso d c) = iso d c); [|rewrite E; reflexivity].
  assert (A : forallb (fun a => tc a || is a "T") (iso d c) = true).
  { assert (W : forall l, Forall dig l -> forallb (fun a => tc a || is a "T") (tx l) = true) by (intros l Hl; pose proof (tx_tc l Hl) as X; rewrite forallb_forall in X |- *; intros a Ha; rewrite (X a Ha); reflexivity).
    assert (T : forall l, Forall dig l -> Forall dig (two l)) by (intros l Hl; unfold two; destruct (length l =? 1); [constructor; [unfold dig; lia|exact Hl]|exact Hl]).
    pose proof Hd as [[_ Hy] [[_ Hm] [_ Hdd]]]. unfold iso, date_text. destruct c as [h|h m|h m s|h m s f]; cbn [clock_ok clock_text] in Hc |- *; unfold colon; repeat (rewrite forallb_app || cbn [forallb]);
    repeat match goal with |- context [forallb _ (tx (two ?l))] => rewrite (W (two l)) by (apply T, short_dig; tauto) | |- context [forallb _ (tx ?l)] => rewrite (W l) by (first [assumption|apply short_dig; tauto|apply short_dig, digs_short; tauto|tauto]) end; reflexivity. }
  rewrite forallb_forall in A. assert (Fc : forall a, (tc a || is a "T") = true -> upper a = a /\ is_space a = false) by (intros a; destruct a as [[] [] [] [] [] [] [] []]; intros H; try discriminate H; split; reflexivity).
  unfold clean. rewrite strip_tight.
  - rewrite (map_ext_in upper (fun a => a)) by (intros a Ha; apply Fc, A, Ha). rewrite map_id. pose proof Hd as [[L Dy] _]. unfold iso, date_text. destruct (year d) as [|y l]; [discriminate L|]. inversion Dy; subst. cbn [tx TabProps.text map app skip].
    assert (X : (is (char_of y) "U" || is (char_of y) "T") = false) by (apply tc_facts; unfold tc; rewrite (proj1 (dig_char y ltac:(assumption))); reflexivity). rewrite X. reflexivity.
  - split; [destruct (iso d c) as [|a r] eqn:E; [exact I|apply Fc, A; left; reflexivity]|]. destruct (rev (iso d c)) as [|a r] eqn:E; [exact I|]. apply Fc, A. rewrite in_rev, E. left. reflexivity.
Qed.
Print Assumptions C91_again.
(** A fraction of an hour or of a minute is taken for minutes or seconds: half past ten, written as 10.5 hours, becomes five past ten. *)
Theorem C91_fraction_refuted : forall valid d h f, date_ok d -> digs 2 h -> short f ->
  isotime1 valid (colon (date_text ":" d) (tx h ++ "."%char :: tx f)) = if valid (iso d (H2 h f)) then Some (iso d (H2 h f)) else None.
Proof.
  intros valid d h f Hd Hh Hf. pose proof (proj2 Hh) as Dh. pose proof (short_dig f Hf) as Df. pose proof Hd as [Hy [Hm Hdd]].
  assert (W : colon (date_text ":" d) (tx h ++ "."%char :: tx f) = colon (tx (year d)) (colon (tx (month d)) (colon (tx (day d)) (tx h ++ "."%char :: tx f)))) by (unfold date_text, colon; rewrite <- !app_assoc; cbn [app]; rewrite <- !app_assoc; reflexivity).
  unfold isotime1. cbv zeta. pose proof (clean_text (0, 0) [] (colon (date_text ":" d) (tx h ++ "."%char :: tx f)) eq_refl (colon_ne _ _)) as C. rewrite padded_0 in C. cbn [app] in C. rewrite C.
  2:{ unfold colon. rewrite forallb_app. cbn [forallb]. rewrite forallb_app. cbn [forallb]. rewrite date_tc, !tx_tc by assumption. reflexivity. }
  assert (F : full_match (colon (date_text ":" d) (tx h ++ "."%char :: tx f)) = true).
  { unfold full_match. rewrite W, !split_colon, split_frac by (first [apply Hy|apply Hm|apply Hdd|assumption]). rewrite digits_n_tx by exact Hy. cbn [length Nat.leb andb removelast last forallb]. rewrite !(digits_n_tx 2) by assumption. rewrite last_ok_frac by (first [right; exact Hh|exact Df]). reflexivity. }
  rewrite F. assert (R : rewrite_full (colon (date_text ":" d) (tx h ++ "."%char :: tx f)) = iso d (H2 h f)); [|rewrite R; reflexivity].
  erewrite rewrite_parts by (rewrite W, !dot_colon, dot_frac, !split_colon, split_last by (first [apply Hy|apply Hm|apply Hdd|assumption]); reflexivity). cbn [firstn skipn map]. rewrite zfill_same by exact Hy. rewrite (zfill_same 2 (month d)), (zfill_same 2 (day d)), (zfill_same 2 h), zfill_two by assumption.
  rewrite fin_date by (first [exact Hd|discriminate]). rewrite app_nil_r. reflexivity.
Qed.
Print Assumptions C91_fraction_refuted.
(** A list of texts becomes the list of their ISO texts, or an error if one of them is not a time. *)
Theorem C91_list : forall valid l r, as_isotime valid (TList l) = Some (TList r) <-> Forall2 (fun s t => as_isotime valid (Scalar s) = Some (Scalar t)) l r.
Proof.
  intros valid l r. assert (S : forall s t, as_isotime valid (Scalar s) = Some (Scalar t) <-> isotime1 valid s = Some t) by (intros s t; cbn; destruct (isotime1 valid s); split; congruence).
  assert (A : all_some (map (isotime1 valid) l) = Some r <-> Forall2 (fun s t => isotime1 valid s = Some t) l r).
  { revert r. induction l as [|s l IH]; intros r; cbn [map all_some].
    - split; [intros H; assert (r = []) by congruence; subst; constructor|intros H; inversion H; reflexivity].
    - destruct (isotime1 valid s) as [t|] eqn:E; [|split; [discriminate|intros H; inversion H; congruence]]. destruct (all_some (map (isotime1 valid) l)) as [r'|].
      + split; [intros H; assert (r = t :: r') by congruence; subst; constructor; [exact E|apply IH; reflexivity]|]. intros H. inversion H as [|s' t' l' r'' Ht Hr]; subst. apply IH in Hr. congruence.
      + split; [discriminate|]. intros H. inversion H as [|s' t' l' r'' Ht Hr]; subst. apply IH in Hr. discriminate Hr. }
  cbn [as_isotime]. split.
  - intros H. destruct (all_some (map (isotime1 valid) l)) as [r'|]; [|discriminate H]. assert (r' = r) by congruence. subst r'. assert (F : Forall2 (fun s t => isotime1 valid s = Some t) l r) by (apply A; reflexivity).
    clear - F S. induction F; constructor; [apply S; assumption|assumption].
  - intros H. assert (F : Forall2 (fun s t => isotime1 valid s = Some t) l r) by (clear - H S; induction H; constructor; [apply S; assumption|assumption]). apply A in F. rewrite F. reflexivity.
Qed.
Print Assumptions C91_list.
(** But a numpy array of texts is given back as it is. *)
Theorem C91_array_refuted : forall valid l r, as_isotime valid (TArray l) = Some r -> r = TArray l.
Proof. intros valid l r H. cbn in H. destruct (all_some (map (isotime1 valid) l)); congruence. Qed.
Print Assumptions C91_array_refuted.

(** Non-vacuity *)
Definition case_date := Date [2; 0; 1; 0] [0; 6] [2; 3].
Definition case_clock := H4 [0; 1] [0; 2] [3] [2; 5].
Example C91_case_ok : date_ok case_date /\ clock_ok case_clock.
Proof. assert (D : forall l, forallb (fun d => d <? 10) l = true -> Forall dig l) by (intros l H; apply Forall_forall; intros d Hd; rewrite forallb_forall in H; specialize (H d Hd); unfold dig; lia). repeat split; try (apply D; reflexivity). left. split; [reflexivity|apply D; reflexivity]. Qed.
Example C91_case : isotime1 (fun _ => true) (list_ascii_of_string " ut2010:06:23:01:02:3.25") = Some (list_ascii_of_string "2010-06-23T01:02:03.25") /\ padded (1, 0) (list_ascii_of_string "ut" ++ written case_date case_clock) = list_ascii_of_string " ut2010:06:23:01:02:3.25".
Proof. split; reflexivity. Qed.
Example C91_case_array : as_isotime (fun _ => true) (TArray [list_ascii_of_string "2010:06:23"]) = Some (TArray [list_ascii_of_string "2010:06:23"]) /\ as_isotime (fun _ => true) (TList [list_ascii_of_string "2010:06:23"]) = Some (TList [list_ascii_of_string "2010-06-23"]).
Proof. split; reflexivity. Qed.
Example C91_case_half : isotime1 (fun _ => true) (list_ascii_of_string "2010:06:23:10.5") = Some (list_ascii_of_string "2010-06-23T10:05").
Proof. reflexivity. Qed.
