From Verif Require Export NdSelSpec.
From Coq Require Import ZifyBool ZifyNat.

Lemma nm_eqb_iff a b : nm_eqb a b = true <-> a = b.
Proof.
  destruct a, b; cbn; try (split; discriminate).
  - rewrite Z.eqb_eq. split; congruence.
  - rewrite Nat.eqb_eq. split; congruence.
Qed.
Lemma nm_eqb_refl a : nm_eqb a a = true.
Proof. now apply nm_eqb_iff. Qed.
Lemma existsb_nm n l : existsb (nm_eqb n) l = true <-> In n l.
Proof.
  rewrite existsb_exists. split.
  - intros (x & Hx & E). apply nm_eqb_iff in E. now subst.
  - intros H. exists n. split; [exact H|apply nm_eqb_refl].
Qed.

Lemma index_of_pos n l : index_of n l = if existsb (nm_eqb n) l then Some (pos n l) else None.
Proof.
  induction l as [|a l IH]; cbn; [reflexivity|]. destruct (nm_eqb n a); [reflexivity|].
  cbn. rewrite IH. destruct (existsb _ l); reflexivity.
Qed.
Lemma pos_In n l : In n l -> nth_error l (pos n l) = Some n.
Proof.
  induction l as [|a l IH]; cbn; [tauto|]. destruct (nm_eqb n a) eqn:E.
  - intros _. apply nm_eqb_iff in E. now subst.
  - intros [->|H]; [rewrite nm_eqb_refl in E; discriminate|exact (IH H)].
Qed.
Lemma pos_lt n l : In n l -> pos n l < length l.
Proof. intros H. apply nth_error_Some. rewrite (pos_In n l H). discriminate. Qed.
Lemma pos_nth n l k : NoDup l -> nth_error l k = Some n -> pos n l = k.
Proof.
  intros Hd. revert k. induction Hd as [|a l Ha Hd IH]; intros k Hk; [destruct k; discriminate|].
  cbn. destruct k as [|k].
  - cbn in Hk. injection Hk as ->. now rewrite nm_eqb_refl.
  - cbn in Hk. destruct (nm_eqb n a) eqn:E.
    + apply nm_eqb_iff in E. subst. exfalso. apply Ha. exact (nth_error_In _ _ Hk).
    + f_equal. apply IH, Hk.
Qed.
Lemma pos_firstn n c ax : In n (firstn c ax) <-> In n ax /\ pos n ax < c.
Proof.
  revert c. induction ax as [|a ax IH]; intros c; destruct c as [|c]; cbn [firstn In pos]; try (split; intros; try lia; tauto).
  destruct (nm_eqb n a) eqn:E.
  - apply nm_eqb_iff in E. subst. split; [intros _; split; [now left|lia]|intros _; now left].
  - rewrite IH. split.
    + intros [->|[H1 H2]]; [rewrite nm_eqb_refl in E; discriminate|]. split; [now right|lia].
    + intros [[->|H1] H2]; [rewrite nm_eqb_refl in E; discriminate|]. right. split; [exact H1|lia].
Qed.
Lemma pos_skipn n c ax : NoDup ax -> In n (skipn c ax) -> pos n ax = c + pos n (skipn c ax).
Proof.
  intros Hd Hin. apply pos_nth; [exact Hd|].
  pose proof (pos_In n _ Hin) as H. revert H. generalize (pos n (skipn c ax)). clear.
  revert c. induction ax as [|a ax IH]; intros c k H.
  - rewrite skipn_nil in H. destruct k; discriminate.
  - destruct c as [|c]; [exact H|]. cbn in *. apply IH, H.
Qed.

(** split a list at the first occurrence of a name *)
Lemma index_split n (full : list out) j : index_of n (map o_name full) = Some j ->
  exists l1 o l2, full = l1 ++ o :: l2 /\ j = length l1 /\ o_name o = n /\ ~ In n (map o_name l1).
Proof.
  revert j. induction full as [|o full IH]; cbn; intros j H; [discriminate|].
  destruct (nm_eqb n (o_name o)) eqn:E.
  - injection H as <-. apply nm_eqb_iff in E. exists [], o, full. auto.
  - destruct (index_of n (map o_name full)) as [j'|] eqn:E2; [|discriminate]. injection H as <-.
    destruct (IH j' eq_refl) as (l1 & o' & l2 & -> & -> & Hn & Hni).
    exists (o :: l1), o', l2. repeat split; auto. cbn. intros [Hc|Hc]; [|auto].
    rewrite <- Hc, nm_eqb_refl in E. discriminate.
Qed.
Lemma set_at_split {A} (l1 l2 : list A) o x : set_at (l1 ++ o :: l2) (length l1) x = l1 ++ x :: l2.
Proof. induction l1; cbn; [reflexivity|]. now rewrite IHl1. Qed.

(** * The loop, with "is a newaxis" read off the item *)
Fixpoint assemble' (ax : list nm) (es : list ent) (full : list out) (rem : list nm) (n_unnamed : nat) : fres :=
  match es with
  | [] => FOk (full ++ map full_out rem)
  | (name, s) :: es' =>
      match name with
      | None =>
          if is_new s then assemble' ax es' (full ++ [(NNew n_unnamed, s, true)]) rem (S n_unnamed)
          else match rem with
               | [] => FIndexError
               | n :: rem' => assemble' ax es' (full ++ [(n, s, false)]) rem' n_unnamed
               end
      | Some n =>
          if is_new s then
            if existsb (nm_eqb n) (map o_name full) || existsb (nm_eqb n) ax then FIndexError
            else assemble' ax es' (full ++ [(n, s, true)]) rem n_unnamed
          else
            match index_of n (map o_name full) with
            | Some j =>
                if is_full (o_item (nth j full (full_out n)))
                then assemble' ax es' (set_at full j (n, s, false)) rem n_unnamed
                else FIndexError
            | None =>
                match index_of n rem with
                | None => FValueError
                | Some k =>
                    assemble' ax es' (full ++ map full_out (firstn k rem) ++ [(n, s, false)]) (skipn (S k) rem) n_unnamed
                end
            end
      end
  end.

Lemma assemble_flags ax newax : forall es i full rem nu,
  (forall k e, nth_error es k = Some e -> existsb (Z.eqb (Z.of_nat (i + k))) newax = is_new (snd e)) ->
  assemble ax newax i es full rem nu = assemble' ax es full rem nu.
Proof.
  induction es as [|[name s] es IH]; intros i full rem nu H; [reflexivity|]. cbn [assemble assemble'].
  pose proof (H 0%nat (name, s) eq_refl) as H0. rewrite Nat.add_0_r in H0. cbn [snd] in H0. rewrite H0.
  assert (Hn : forall k e, nth_error es k = Some e -> existsb (Z.eqb (Z.of_nat (S i + k))) newax = is_new (snd e)).
  { intros k e Hk. replace (S i + k)%nat with (i + S k)%nat by lia. apply H. exact Hk. }
  destruct name as [n|].
  - destruct (is_new s).
    + destruct (_ || _); [reflexivity|]. now apply IH.
    + destruct (index_of n (map o_name full)); [destruct (is_full _); [now apply IH|reflexivity]|].
      destruct (index_of n rem); [now apply IH|reflexivity].
  - destruct (is_new s); [now apply IH|]. destruct rem; [reflexivity|now apply IH].
Qed.

(** * Invariant *)
Lemma cursor_snoc ax P e : cursor ax (P ++ [e]) =
  match e with (_, INew) => cursor ax P | (None, _) => S (cursor ax P) | (Some n, _) => Nat.max (cursor ax P) (S (pos n ax)) end.
Proof. unfold cursor. rewrite fold_left_app. reflexivity. Qed.
Lemma cursor_mono ax P Q : cursor ax P <= cursor ax (P ++ Q).
Proof.
  induction Q as [|e Q IH] using rev_ind; [now rewrite app_nil_r|].
  rewrite app_assoc, cursor_snoc. destruct e as [[n|] []]; lia.
Qed.
Lemma target_lt ax b1 e b2 : is_new (snd e) = false -> target ax b1 e < cursor ax (b1 ++ e :: b2).
Proof.
  intros Hn. replace (b1 ++ e :: b2) with ((b1 ++ [e]) ++ b2) by (rewrite <- app_assoc; reflexivity).
  pose proof (cursor_mono ax (b1 ++ [e]) b2) as H. rewrite cursor_snoc in H. unfold target.
  destruct e as [[n|] []]; cbn in *; try discriminate; lia.
Qed.
Lemma nnew_snoc P e : nnew (P ++ [e]) = nnew P + (if is_new (snd e) then 1 else 0).
Proof. unfold nnew. rewrite filter_app, app_length. cbn. destruct (is_new (snd e)); reflexivity. Qed.
Lemma nanon_snoc P e : nanon (P ++ [e]) = nanon P + (if is_new (snd e) && match fst e with None => true | Some _ => false end then 1 else 0).
Proof. unfold nanon. rewrite filter_app, app_length. cbn. destruct (_ && _); reflexivity. Qed.

Lemma snoc_split {A} (P : list A) e b x a : P ++ [e] = b ++ x :: a ->
  (a = [] /\ b = P /\ x = e) \/ (exists a', a = a' ++ [e] /\ P = b ++ x :: a').
Proof.
  destruct a as [|y a] using rev_ind; intros H.
  - apply app_inj_tail in H. destruct H as [-> ->]. left. auto.
  - right. exists a. assert (Hx : P ++ [e] = (b ++ x :: a) ++ [y]) by (rewrite H, <- app_assoc; reflexivity).
    apply app_inj_tail in Hx. destruct Hx as [-> ->]. auto.
Qed.

Record inv (ax : list nm) (P : list ent) (full : list out) (rem : list nm) (nu : nat) : Prop := {
  i_le : cursor ax P <= length ax;
  i_names : map o_name (axes full) = firstn (cursor ax P) ax;
  i_rem : rem = skipn (cursor ax P) ax;
  i_sel : forall b e a, P = b ++ e :: a -> is_new (snd e) = false -> snd e <> IFull ->
     exists o, nth_error (axes full) (target ax b e) = Some o /\ o_item o = snd e;
  i_src : forall k o, nth_error (axes full) k = Some o -> o_item o <> IFull ->
     exists b e a, P = b ++ e :: a /\ is_new (snd e) = false /\ target ax b e = k /\ snd e = o_item o;
  i_new : forall b name a, P = b ++ (name, INew) :: a ->
     nth_error full (cursor ax b + nnew b) = Some (newname b name, INew, true);
  i_newsrc : forall o, In o full -> o_new o = true ->
     exists b name a, P = b ++ (name, INew) :: a /\ o = (newname b name, INew, true);
  i_nu : nu = nanon P;
  i_len : length full = cursor ax P + nnew P
}.

Lemma inv_nil ax : inv ax [] [] ax 0.
Proof.
  constructor; cbn; try reflexivity; try lia; intros; try contradiction.
  - destruct b; discriminate.
  - destruct k; discriminate.
  - destruct b; discriminate.
Qed.

Lemma axes_app l1 l2 : axes (l1 ++ l2) = axes l1 ++ axes l2.
Proof. apply filter_app. Qed.
Lemma axes_len ax P full rem nu : inv ax P full rem nu -> length (axes full) = cursor ax P.
Proof.
  intros H. pose proof (f_equal (@length _) (i_names _ _ _ _ _ H)) as E.
  rewrite map_length, firstn_length in E. pose proof (i_le _ _ _ _ _ H). lia.
Qed.
Lemma axes_full_outs l : axes (map full_out l) = map full_out l.
Proof. unfold axes. induction l as [|a l IH]; cbn; [reflexivity|]. now rewrite IH. Qed.
Lemma names_full_outs l : map o_name (map full_out l) = l.
Proof. induction l; cbn; [reflexivity|]. now rewrite IHl. Qed.
Lemma firstn_S_nth {A} (l : list A) c x : nth_error l c = Some x -> firstn (S c) l = firstn c l ++ [x].
Proof. revert c. induction l as [|y l IH]; intros [|c] H; try discriminate; cbn in *; [congruence|]. f_equal. now apply IH. Qed.
Lemma skipn_cons {A} (l : list A) c x r : skipn c l = x :: r -> nth_error l c = Some x /\ r = skipn (S c) l.
Proof. revert l. induction c as [|c IH]; intros [|y l] H; try discriminate; cbn in *; [injection H as -> ->; auto|]. apply IH, H. Qed.
Lemma firstn_plus {A} a b (l : list A) : firstn (a + b) l = firstn a l ++ firstn b (skipn a l).
Proof. revert l. induction a as [|a IH]; intros l; [reflexivity|]. destruct l; cbn; [now rewrite firstn_nil|]. f_equal. apply IH. Qed.
Lemma skipn_plus {A} a b (l : list A) : skipn b (skipn a l) = skipn (a + b) l.
Proof. revert l. induction a as [|a IH]; intros l; [reflexivity|]. destruct l; cbn; [now rewrite skipn_nil|]. apply IH. Qed.

Lemma i_sel_new ax P full e nu rem full' c (H : inv ax P full rem nu) :
  (* common part: appending entries whose axes extend the old ones *)
  (exists ext, axes full' = axes full ++ ext) -> is_new (snd e) = false ->
  (snd e <> IFull -> exists o, nth_error (axes full') c = Some o /\ o_item o = snd e) -> target ax P e = c ->
  forall b e' a, P ++ [e] = b ++ e' :: a -> is_new (snd e') = false -> snd e' <> IFull ->
     exists o, nth_error (axes full') (target ax b e') = Some o /\ o_item o = snd e'.
Proof.
  intros (ext & Hx) Hne Hc Ht b e' a E Hn Hf. apply snoc_split in E. destruct E as [(-> & -> & ->)|(a' & -> & E)].
  - rewrite Ht. apply Hc, Hf.
  - destruct (i_sel _ _ _ _ _ H b e' a' E Hn Hf) as (o & Ho & Hi). exists o. split; [|exact Hi].
    rewrite Hx, nth_error_app1; [exact Ho|]. apply nth_error_Some. congruence.
Qed.

(** the loop step for an entry that is not a newaxis and whose axis is past the cursor *)
Lemma inv_append ax P full rem nu name s skipped n rem' :
  NoDup ax -> inv ax P full rem nu -> is_new s = false ->
  rem = skipped ++ n :: rem' ->
  target ax P (name, s) = cursor ax P + length skipped ->
  cursor ax (P ++ [(name, s)]) = S (cursor ax P + length skipped) ->
  inv ax (P ++ [(name, s)]) (full ++ map full_out skipped ++ [(n, s, false)]) rem' nu.
Proof.
  intros Hd H Hs Hr Ht Hc. pose proof (axes_len _ _ _ _ _ H) as Hal. destruct H as [H1 H2 H3 H4 H5 H6 H7 H8 H9].
  assert (H : inv ax P full rem nu) by (constructor; assumption).
  set (c := cursor ax P) in *.
  assert (Hax : axes (full ++ map full_out skipped ++ [(n, s, false)]) = axes full ++ map full_out skipped ++ [(n, s, false)]).
  { rewrite !axes_app, axes_full_outs. reflexivity. }
  assert (Hlen : c + length skipped < length ax).
  { pose proof (f_equal (@length _) H3) as E. rewrite Hr, app_length, skipn_length in E. cbn in E. lia. }
  constructor.
  - rewrite Hc. lia.
  - rewrite Hax, !map_app, H2, names_full_outs, Hc. cbn [map o_name fst].
    replace (S (c + length skipped)) with (c + (length skipped + 1)) by lia.
    rewrite firstn_plus. f_equal. rewrite <- H3, Hr, firstn_app.
    rewrite firstn_all2 by lia. replace (length skipped + 1 - length skipped) with 1 by lia. reflexivity.
  - rewrite Hc. replace (S (c + length skipped)) with (c + (length skipped + 1)) by lia.
    rewrite <- skipn_plus, <- H3, Hr, skipn_app. rewrite skipn_all2 by lia.
    replace (length skipped + 1 - length skipped) with 1 by lia. reflexivity.
  - apply (i_sel_new ax P full (name, s) nu rem _ (c + length skipped) H).
    + rewrite Hax. eexists. reflexivity.
    + exact Hs.
    + intros _. rewrite Hax. rewrite nth_error_app2 by lia. rewrite Hal.
      replace (c + length skipped - c) with (length (map full_out skipped)) by (rewrite map_length; lia).
      rewrite nth_error_app2 by lia. rewrite Nat.sub_diag. eexists. split; reflexivity.
    + exact Ht.
  - intros k o Hk Hf. rewrite Hax in Hk.
    destruct (lt_dec k c) as [Hlt|Hge].
    + rewrite nth_error_app1 in Hk by lia. destruct (H5 k o Hk Hf) as (b & e & a & E & Hn & Htk & Hi).
      exists b, e, (a ++ [(name, s)]). rewrite E, <- app_assoc. auto.
    + rewrite nth_error_app2 in Hk by lia. rewrite Hal in Hk.
      destruct (lt_dec (k - c) (length skipped)) as [Hl2|Hg2].
      * rewrite nth_error_app1 in Hk by (rewrite map_length; lia). rewrite nth_error_map in Hk.
        destruct (nth_error skipped (k - c)); [|discriminate]. injection Hk as <-. cbn in Hf. congruence.
      * rewrite nth_error_app2 in Hk by (rewrite map_length; lia). rewrite map_length in Hk.
        destruct (k - c - length skipped) as [|q] eqn:Eq; [|destruct q; discriminate].
        cbn in Hk. injection Hk as <-. exists P, (name, s), []. repeat split; auto. lia.
  - intros b nm0 a E. apply snoc_split in E. destruct E as [(-> & -> & E2)|(a' & -> & E)].
    + exfalso. inversion E2; subst; discriminate Hs.
    + rewrite nth_error_app1; [exact (H6 b nm0 a' E)|]. apply nth_error_Some. rewrite (H6 b nm0 a' E). discriminate.
  - intros o Ho Hn. apply in_app_or in Ho. destruct Ho as [Ho|Ho].
    + destruct (H7 o Ho Hn) as (b & nm0 & a & E & Eo). exists b, nm0, (a ++ [(name, s)]). rewrite E, <- app_assoc. auto.
    + apply in_app_or in Ho. destruct Ho as [Ho|[<-|[]]]; [|discriminate].
      apply in_map_iff in Ho. destruct Ho as (x & <- & _). discriminate.
  - rewrite nanon_snoc. cbn [snd]. rewrite Hs. cbn. lia.
  - rewrite !app_length, map_length, Hc, nnew_snoc. cbn [snd length]. rewrite Hs. lia.
Qed.

(** a newaxis entry *)
Lemma inv_new ax P full rem nu name :
  inv ax P full rem nu ->
  inv ax (P ++ [(name, INew)]) (full ++ [(newname P name, INew, true)]) rem (nanon (P ++ [(name, INew)])).
Proof.
  intros H. destruct H as [H1 H2 H3 H4 H5 H6 H7 H8 H9].
  assert (Hc : cursor ax (P ++ [(name, INew)]) = cursor ax P) by (rewrite cursor_snoc; destruct name; reflexivity).
  assert (Hax : axes (full ++ [(newname P name, INew, true)]) = axes full).
  { rewrite axes_app. cbn. apply app_nil_r. }
  constructor; rewrite ?Hc, ?Hax; auto.
  - intros b e a E Hn Hf. apply snoc_split in E. destruct E as [(-> & -> & ->)|(a' & -> & E)]; [discriminate|].
    exact (H4 b e a' E Hn Hf).
  - intros k o Hk Hf. destruct (H5 k o Hk Hf) as (b & e & a & E & Hn & Htk & Hi).
    exists b, e, (a ++ [(name, INew)]). rewrite E, <- app_assoc. auto.
  - intros b nm0 a E. apply snoc_split in E. destruct E as [(-> & -> & E2)|(a' & -> & E)].
    + injection E2 as ->. rewrite nth_error_app2 by lia. rewrite H9, Nat.sub_diag. reflexivity.
    + rewrite nth_error_app1; [exact (H6 b nm0 a' E)|]. apply nth_error_Some. rewrite (H6 b nm0 a' E). discriminate.
  - intros o Ho Hn. apply in_app_or in Ho. destruct Ho as [Ho|[<-|[]]].
    + destruct (H7 o Ho Hn) as (b & nm0 & a & E & Eo). exists b, nm0, (a ++ [(name, INew)]). rewrite E, <- app_assoc. auto.
    + exists P, name, []. auto.
  - rewrite app_length, nnew_snoc. cbn. lia.
Qed.

(** a named entry whose axis was already passed *)
Lemma inv_replace ax P l1 o l2 rem nu n s :
  NoDup ax -> inv ax P (l1 ++ o :: l2) rem nu -> is_new s = false ->
  o_name o = n -> o_item o = IFull -> o_new o = false ->
  pos n ax < cursor ax P /\
  length (axes l1) = pos n ax /\
  inv ax (P ++ [(Some n, s)]) (l1 ++ (n, s, false) :: l2) rem nu.
Proof.
  intros Hd H Hs Hon Hoi Hon2. pose proof (axes_len _ _ _ _ _ H) as Hal. destruct H as [H1 H2 H3 H4 H5 H6 H7 H8 H9].
  assert (Hax : axes (l1 ++ o :: l2) = axes l1 ++ o :: axes l2).
  { rewrite axes_app. cbn. rewrite Hon2. reflexivity. }
  assert (Hax' : axes (l1 ++ (n, s, false) :: l2) = axes l1 ++ (n, s, false) :: axes l2).
  { rewrite axes_app. reflexivity. }
  assert (Hnth : nth_error ax (length (axes l1)) = Some n).
  { assert (E : nth_error (firstn (cursor ax P) ax) (length (axes l1)) = Some n).
    { rewrite <- H2, Hax, nth_error_map, nth_error_app2 by lia. rewrite Nat.sub_diag. cbn. now rewrite Hon. }
    rewrite <- (firstn_skipn (cursor ax P) ax). rewrite nth_error_app1; [exact E|]. apply nth_error_Some. congruence. }
  assert (Hpos : pos n ax = length (axes l1)) by (apply pos_nth; assumption).
  assert (Hlt : pos n ax < cursor ax P).
  { rewrite Hax, app_length in Hal. cbn in Hal. lia. }
  assert (Hc : cursor ax (P ++ [(Some n, s)]) = cursor ax P).
  { rewrite cursor_snoc. destruct s; try discriminate; lia. }
  split; [exact Hlt|]. split; [lia|].
  constructor; rewrite ?Hc; auto.
  - rewrite Hax', map_app. rewrite Hax, map_app in H2. cbn [map] in *. rewrite <- H2, Hon. reflexivity.
  - intros b e a E Hn Hf. apply snoc_split in E. destruct E as [(-> & -> & ->)|(a' & -> & E)].
    + cbn [target fst]. exists (n, s, false). split; [|reflexivity].
      unfold target. cbn [fst]. rewrite Hax', Hpos, nth_error_app2 by lia. now rewrite Nat.sub_diag.
    + destruct (H4 b e a' E Hn Hf) as (o' & Ho & Hi). exists o'. split; [|exact Hi].
      rewrite Hax in Ho. rewrite Hax'.
      destruct (lt_eq_lt_dec (target ax b e) (length (axes l1))) as [[Hl|He]|Hg].
      * rewrite nth_error_app1 in Ho |- * by lia. exact Ho.
      * rewrite nth_error_app2 in Ho by lia. rewrite He, Nat.sub_diag in Ho. cbn in Ho. injection Ho as ->. congruence.
      * rewrite nth_error_app2 in Ho |- * by lia. destruct (target ax b e - length (axes l1)) eqn:Eq; [lia|]. exact Ho.
  - intros k o' Hk Hf. rewrite Hax' in Hk.
    destruct (Nat.eq_dec k (length (axes l1))) as [->|Hne].
    + rewrite nth_error_app2, Nat.sub_diag in Hk by lia. cbn in Hk. injection Hk as <-.
      exists P, (Some n, s), []. repeat split; auto.
    + assert (Hk' : nth_error (axes (l1 ++ o :: l2)) k = Some o').
      { rewrite Hax. destruct (lt_dec k (length (axes l1))) as [Hl|Hg].
        - rewrite nth_error_app1 in Hk |- * by lia. exact Hk.
        - rewrite nth_error_app2 in Hk |- * by lia. destruct (k - length (axes l1)) eqn:Eq; [lia|]. exact Hk. }
      destruct (H5 k o' Hk' Hf) as (b & e & a & E & Hn & Htk & Hi).
      exists b, e, (a ++ [(Some n, s)]). rewrite E, <- app_assoc. auto.
  - intros b nm0 a E. apply snoc_split in E. destruct E as [(-> & -> & E2)|(a' & -> & E)].
    + exfalso. inversion E2; subst; discriminate Hs.
    + pose proof (H6 b nm0 a' E) as Hx.
      destruct (lt_eq_lt_dec (cursor ax b + nnew b) (length l1)) as [[Hl|He]|Hg].
      * rewrite nth_error_app1 in Hx |- * by lia. exact Hx.
      * rewrite nth_error_app2 in Hx by lia. rewrite He, Nat.sub_diag in Hx. cbn in Hx. injection Hx as ->. discriminate.
      * rewrite nth_error_app2 in Hx |- * by lia. destruct (cursor ax b + nnew b - length l1) eqn:Eq; [lia|]. exact Hx.
  - intros o' Ho Hn. apply in_app_or in Ho. destruct Ho as [Ho|[<-|Ho]]; [|discriminate|];
      (destruct (H7 o') as (b & nm0 & a & E & Eo); [apply in_or_app; cbn; tauto|exact Hn|];
       exists b, nm0, (a ++ [(Some n, s)]); rewrite E, <- app_assoc; auto).
  - rewrite nanon_snoc. cbn [snd]. rewrite Hs. cbn. lia.
  - rewrite app_length in *. cbn [length] in *. rewrite nnew_snoc. cbn [snd]. rewrite Hs. lia.
Qed.

(** legality of one entry after the entries P *)
Definition legal1 (ax : list nm) (P : list ent) (name : option nm) (s : item) : Prop :=
  match s, name with
  | INew, None => True
  | INew, Some n => ~ In n ax /\ forall b1 nm1 b2, P = b1 ++ (nm1, INew) :: b2 -> newname b1 nm1 <> n
  | _, None => cursor ax P < length ax
  | _, Some n => In n ax /\
      forall b1 e b2, P = b1 ++ e :: b2 -> is_new (snd e) = false -> target ax b1 e = pos n ax -> snd e = IFull
  end.
Lemma legal1_sel ax P name s : is_new s = false ->
  legal1 ax P name s <->
  match name with
  | None => cursor ax P < length ax
  | Some n => In n ax /\
      forall b1 e b2, P = b1 ++ e :: b2 -> is_new (snd e) = false -> target ax b1 e = pos n ax -> snd e = IFull
  end.
Proof. intros H. destruct s; try discriminate; destruct name; reflexivity. Qed.

Definition user_axes (ax : list nm) : Prop := forall i, ~ In (NNew i) ax.

Lemma names_in_full ax P full rem nu n : inv ax P full rem nu ->
  In n (map o_name full) <->
  (In n ax /\ pos n ax < cursor ax P) \/ exists b name a, P = b ++ (name, INew) :: a /\ newname b name = n.
Proof.
  intros H. rewrite <- pos_firstn, <- (i_names _ _ _ _ _ H). split.
  - intros Hin. apply in_map_iff in Hin. destruct Hin as (o & <- & Ho). destruct (o_new o) eqn:E.
    + right. destruct (i_newsrc _ _ _ _ _ H o Ho E) as (b & nm0 & a & E1 & ->). exists b, nm0, a. auto.
    + left. apply in_map. unfold axes. apply filter_In. rewrite E. auto.
  - intros [Hin|(b & nm0 & a & E & <-)].
    + apply in_map_iff in Hin. destruct Hin as (o & <- & Ho). apply in_map. apply filter_In in Ho. tauto.
    + apply in_map_iff. eexists. split; [|exact (nth_error_In _ _ (i_new _ _ _ _ _ H b nm0 a E))]. reflexivity.
Qed.

Theorem assemble_spec ax : NoDup ax -> user_axes ax -> forall es P full rem nu,
  inv ax P full rem nu ->
  (forall b name s a, P = b ++ (name, s) :: a -> legal1 ax b name s) ->
  (exists full' rem' nu', assemble' ax es full rem nu = FOk (full' ++ map full_out rem') /\ inv ax (P ++ es) full' rem' nu' /\
     (forall b name s a, P ++ es = b ++ (name, s) :: a -> legal1 ax b name s)) \/
  ((assemble' ax es full rem nu = FIndexError \/ assemble' ax es full rem nu = FValueError) /\
     exists b name s a, P ++ es = b ++ (name, s) :: a /\ ~ legal1 ax b name s).
Proof.
  intros Hd Hu. induction es as [|[name s] es IH]; intros P full rem nu H Hl.
  - left. exists full, rem, nu. rewrite app_nil_r. auto.
  - assert (Hstep : forall full2 rem2 nu2, inv ax (P ++ [(name, s)]) full2 rem2 nu2 -> legal1 ax P name s ->
      assemble' ax ((name, s) :: es) full rem nu = assemble' ax es full2 rem2 nu2 ->
      (exists full' rem' nu', assemble' ax ((name, s) :: es) full rem nu = FOk (full' ++ map full_out rem') /\ inv ax (P ++ (name, s) :: es) full' rem' nu' /\
       (forall b name' s' a, P ++ (name, s) :: es = b ++ (name', s') :: a -> legal1 ax b name' s')) \/
      ((assemble' ax ((name, s) :: es) full rem nu = FIndexError \/ assemble' ax ((name, s) :: es) full rem nu = FValueError) /\
       exists b name' s' a, P ++ (name, s) :: es = b ++ (name', s') :: a /\ ~ legal1 ax b name' s')).
    { intros full2 rem2 nu2 Hi Hl1 E. rewrite E. specialize (IH (P ++ [(name, s)]) full2 rem2 nu2 Hi).
      rewrite <- app_assoc in IH. cbn [app] in IH. apply IH.
      intros b nm0 s0 a Eb. apply snoc_split in Eb. destruct Eb as [(-> & -> & E2)|(a' & -> & Eb)].
      - injection E2 as -> ->. exact Hl1.
      - exact (Hl b nm0 s0 a' Eb). }
    assert (Hbad : (assemble' ax ((name, s) :: es) full rem nu = FIndexError \/ assemble' ax ((name, s) :: es) full rem nu = FValueError) -> ~ legal1 ax P name s ->
      (exists full' rem' nu', assemble' ax ((name, s) :: es) full rem nu = FOk (full' ++ map full_out rem') /\ inv ax (P ++ (name, s) :: es) full' rem' nu' /\
       (forall b name' s' a, P ++ (name, s) :: es = b ++ (name', s') :: a -> legal1 ax b name' s')) \/
      ((assemble' ax ((name, s) :: es) full rem nu = FIndexError \/ assemble' ax ((name, s) :: es) full rem nu = FValueError) /\
       exists b name' s' a, P ++ (name, s) :: es = b ++ (name', s') :: a /\ ~ legal1 ax b name' s')).
    { intros E Hn. right. split; [exact E|]. exists P, name, s, es. auto. }
    pose proof (fun n => names_in_full ax P full rem nu n H) as Hnames.
    pose proof (axes_len _ _ _ _ _ H) as Hal.
    cbn [assemble'] in Hstep, Hbad |- *. destruct name as [n|].
    + destruct (is_new s) eqn:Es.
      * assert (s = INew) as -> by (destruct s; try discriminate; reflexivity).
        destruct (existsb (nm_eqb n) (map o_name full) || existsb (nm_eqb n) ax) eqn:E.
        -- apply Hbad; [now left|]. cbn. intros [Hc1 Hc2]. apply orb_true_iff in E. rewrite !existsb_nm in E.
           destruct E as [E|E]; [|exact (Hc1 E)]. apply Hnames in E. destruct E as [[E _]|(b & nm0 & a & E1 & E2)]; [exact (Hc1 E)|].
           exact (Hc2 b nm0 a E1 E2).
        -- apply orb_false_iff in E. destruct E as [E1 E2].
           eapply Hstep; [exact (inv_new ax P full rem nu (Some n) H)| |].
           ++ cbn. split.
              ** intros Hc. apply existsb_nm in Hc. congruence.
              ** intros b nm0 a Eb Hc. assert (Hin : In n (map o_name full)) by (apply Hnames; right; eauto).
                 apply existsb_nm in Hin. congruence.
           ++ cbn [newname]. f_equal. rewrite (i_nu _ _ _ _ _ H), nanon_snoc. cbn. lia.
      * destruct (index_of n (map o_name full)) as [j|] eqn:Ej.
        -- destruct (index_split n full j Ej) as (l1 & o & l2 & Ef & -> & Hon & Hni).
           assert (Enth : nth (length l1) full (full_out n) = o).
           { rewrite Ef, app_nth2 by lia. now rewrite Nat.sub_diag. }
           rewrite Enth in Hstep, Hbad |- *. rewrite Ef in Hstep, Hbad |- *. rewrite set_at_split in Hstep |- *.
           rewrite Ef in H, Hal.
           destruct (is_full (o_item o)) eqn:Efu.
           ++ assert (Hoi : o_item o = IFull) by (destruct (o_item o); try discriminate; reflexivity).
              assert (Hon2 : o_new o = false).
              { destruct (o_new o) eqn:E; [|reflexivity].
                destruct (i_newsrc _ _ _ _ _ H o ltac:(apply in_or_app; right; now left) E) as (b & nm0 & a & _ & ->). discriminate. }
              destruct (inv_replace ax P l1 o l2 rem nu n s Hd H Es Hon Hoi Hon2) as (Hp1 & Hp2 & Hi).
              eapply Hstep; [exact Hi| |reflexivity].
              apply legal1_sel; [exact Es|].
              assert (Hin : In n ax).
              { assert (Hin : In n (firstn (cursor ax P) ax)).
                { rewrite <- (i_names _ _ _ _ _ H), axes_app, map_app. apply in_or_app. right. cbn. rewrite Hon2. cbn. now left. }
                apply pos_firstn in Hin. tauto. }
              split; [exact Hin|]. intros b1 e b2 Eb Hn Ht.
              destruct (snd e) eqn:Ese; try reflexivity; try discriminate; exfalso;
                (destruct (i_sel _ _ _ _ _ H b1 e b2 Eb) as (o' & Ho & Hoi'); [rewrite Ese; reflexivity|congruence|];
                 rewrite Ht, axes_app in Ho; cbn [axes filter] in Ho; rewrite Hon2 in Ho; cbn [negb] in Ho;
                 fold (axes l2) in Ho; rewrite <- Hp2, nth_error_app2, Nat.sub_diag in Ho by lia; cbn in Ho; injection Ho as <-; congruence).
           ++ apply Hbad; [now left|]. rewrite legal1_sel by exact Es. intros [Hc1 Hc2].
              destruct (o_new o) eqn:Eon.
              { (* a new axis with the name of an axis *)
                destruct (i_newsrc _ _ _ _ _ H o ltac:(apply in_or_app; right; now left) Eon) as (b & nm0 & a & Eb & Eo).
                rewrite Eo in Hon. cbn in Hon. destruct nm0 as [m|]; cbn in Hon.
                - subst m. specialize (Hl b (Some n) INew a Eb). cbn in Hl. tauto.
                - apply (Hu (nanon b)). congruence. }
              assert (Hp : pos n ax = length (axes l1)).
              { apply pos_nth; [exact Hd|].
                assert (E : nth_error (firstn (cursor ax P) ax) (length (axes l1)) = Some n).
                { rewrite <- (i_names _ _ _ _ _ H), nth_error_map, axes_app, nth_error_app2 by lia.
                  rewrite Nat.sub_diag. cbn. rewrite Eon. cbn. now rewrite Hon. }
                rewrite <- (firstn_skipn (cursor ax P) ax). rewrite nth_error_app1; [exact E|]. apply nth_error_Some. congruence. }
              destruct (i_src _ _ _ _ _ H (length (axes l1)) o) as (b & e & a & Eb & Hn & Ht & Hi).
              { rewrite axes_app, nth_error_app2, Nat.sub_diag by lia. cbn. rewrite Eon. reflexivity. }
              { intros Hc. rewrite Hc in Efu. discriminate. }
              specialize (Hc2 b e a Eb Hn ltac:(lia)). rewrite Hi in Hc2. rewrite Hc2 in Efu. discriminate.
        -- rewrite index_of_pos in Ej. destruct (existsb (nm_eqb n) (map o_name full)) eqn:Ex; [discriminate|]. clear Ej.
           assert (Hnf : ~ In n (map o_name full)) by (intros Hc; apply existsb_nm in Hc; congruence).
           rewrite index_of_pos in Hstep, Hbad |- *.
           destruct (existsb (nm_eqb n) rem) eqn:Er.
           ++ apply existsb_nm in Er. pose proof Er as Er0. rewrite (i_rem _ _ _ _ _ H) in Er.
              pose proof (pos_skipn n _ ax Hd Er) as Hp. rewrite <- (i_rem _ _ _ _ _ H) in Hp.
              pose proof (pos_In n rem Er0) as Hk. pose proof (pos_lt n rem Er0) as Hkl.
              assert (Esplit : rem = firstn (pos n rem) rem ++ n :: skipn (S (pos n rem)) rem).
              { rewrite <- (firstn_skipn (pos n rem) rem) at 1. f_equal. clear - Hk. revert Hk. generalize (pos n rem) as k.
                intros k. revert rem. induction k as [|k IH]; intros [|x r] Hk; try discriminate; cbn in *; [congruence|]. now apply IH. }
              eapply Hstep; [|  |reflexivity].
              ** eapply inv_append; [exact Hd|exact H|exact Es|exact Esplit| |].
                 --- unfold target. cbn [fst]. rewrite firstn_length. lia.
                 --- rewrite cursor_snoc, firstn_length. destruct s; try discriminate; lia.
              ** apply legal1_sel; [exact Es|]. split.
                 --- rewrite (i_rem _ _ _ _ _ H) in Er0. rewrite <- (firstn_skipn (cursor ax P) ax). apply in_or_app. now right.
                 --- intros b1 e b2 Eb Hn Ht. assert (Hlt : target ax b1 e < cursor ax P) by (rewrite Eb; apply target_lt; exact Hn). lia.
           ++ apply Hbad; [now right|]. rewrite legal1_sel by exact Es. intros [Hc1 _].
              apply Hnf, Hnames. left. split; [exact Hc1|].
              rewrite <- (firstn_skipn (cursor ax P) ax) in Hc1. apply in_app_or in Hc1. destruct Hc1 as [Hc1|Hc1].
              ** apply pos_firstn in Hc1. tauto.
              ** rewrite <- (i_rem _ _ _ _ _ H) in Hc1. apply existsb_nm in Hc1. congruence.
    + destruct (is_new s) eqn:Es.
      * assert (s = INew) as -> by (destruct s; try discriminate; reflexivity).
        eapply Hstep; [exact (inv_new ax P full rem nu None H)|exact I|].
        cbn [newname]. rewrite <- (i_nu _ _ _ _ _ H). f_equal. rewrite (i_nu _ _ _ _ _ H), nanon_snoc. cbn. lia.
      * destruct rem as [|r rem'] eqn:Er.
        -- apply Hbad; [now left|]. rewrite legal1_sel by exact Es. intros Hc.
           pose proof (f_equal (@length _) (i_rem _ _ _ _ _ H)) as E. rewrite skipn_length in E. cbn in E. lia.
        -- eapply Hstep; [|  |reflexivity].
           ++ apply (inv_append ax P full (r :: rem') nu None s [] r rem' Hd H Es eq_refl).
              ** cbn. unfold target. cbn. lia.
              ** rewrite cursor_snoc. cbn [length]. destruct s; try discriminate; lia.
           ++ apply legal1_sel; [exact Es|].
              pose proof (f_equal (@length _) (i_rem _ _ _ _ _ H)) as E. rewrite skipn_length in E. cbn in E. lia.
Qed.

Lemma legal_iff ax es : legal ax es <-> forall b name s a, es = b ++ (name, s) :: a -> legal1 ax b name s.
Proof.
  unfold legal, legal1. split; intros H b name s a E; specialize (H b name s a E); destruct s, name; exact H.
Qed.

Lemma inv_final ax es full rem nu : inv ax es full rem nu -> meets ax es (full ++ map full_out rem).
Proof.
  intros H. pose proof (axes_len _ _ _ _ _ H) as Hal. destruct H as [H1 H2 H3 H4 H5 H6 H7 H8 H9].
  assert (Hax : axes (full ++ map full_out rem) = axes full ++ map full_out rem) by (rewrite axes_app, axes_full_outs; reflexivity).
  constructor.
  - rewrite Hax, map_app, H2, names_full_outs, H3. apply firstn_skipn.
  - intros b e a E Hn Hf. destruct (H4 b e a E Hn Hf) as (o & Ho & Hi). exists o. split; [|exact Hi].
    rewrite Hax, nth_error_app1; [exact Ho|]. apply nth_error_Some. congruence.
  - intros k o Hk Hf. rewrite Hax in Hk. destruct (lt_dec k (length (axes full))) as [Hlt|Hge].
    + rewrite nth_error_app1 in Hk by exact Hlt. exact (H5 k o Hk Hf).
    + rewrite nth_error_app2 in Hk by lia. rewrite nth_error_map in Hk. destruct (nth_error rem _); [|discriminate].
      injection Hk as <-. cbn in Hf. congruence.
  - intros b name a E. rewrite nth_error_app1; [exact (H6 b name a E)|]. apply nth_error_Some. rewrite (H6 b name a E). discriminate.
  - rewrite app_length, map_length, H9, H3, skipn_length. lia.
Qed.

Theorem assemble'_top ax es : NoDup ax -> user_axes ax ->
  (legal ax es -> exists l, assemble' ax es [] ax 0 = FOk l /\ meets ax es l) /\
  (~ legal ax es -> assemble' ax es [] ax 0 = FIndexError \/ assemble' ax es [] ax 0 = FValueError).
Proof.
  intros Hd Hu. destruct (assemble_spec ax Hd Hu es [] [] ax 0 (inv_nil ax)) as [(full & rem & nu & E & Hi & Hl)|(E & b & name & s & a & Eb & Hn)].
  - intros b name s a Eb. destruct b; discriminate.
  - split.
    + intros _. eexists. split; [exact E|]. exact (inv_final _ _ _ _ _ Hi).
    + intros Hc. exfalso. apply Hc. apply legal_iff. exact Hl.
  - split; [|intros _; exact E]. intros Hc. exfalso. apply Hn. rewrite legal_iff in Hc. exact (Hc b name s a Eb).
Qed.

(** * scan *)
Fixpoint newpos (i : nat) (es : list ent) : list nat :=
  match es with [] => [] | e :: es' => (if is_new (snd e) then [i] else []) ++ newpos (S i) es' end.
Lemma scan_noell es : forall i ell news, (forall e, In e es -> is_ell (snd e) = false) ->
  scan i es ell news = Some (ell, news ++ newpos i es).
Proof.
  induction es as [|[n s] es IH]; intros i ell news H; cbn [scan newpos]; [now rewrite app_nil_r|].
  pose proof (H (n, s) (or_introl eq_refl)) as Hs. cbn in Hs.
  assert (H' : forall e, In e es -> is_ell (snd e) = false) by (intros; apply H; now right).
  destruct s; try discriminate; cbn [snd is_new app]; rewrite IH by exact H'; rewrite <- ?app_assoc; reflexivity.
Qed.
Lemma newpos_app l1 l2 : forall i, newpos i (l1 ++ l2) = newpos i l1 ++ newpos (i + length l1) l2.
Proof.
  induction l1 as [|e l1 IH]; intros i; cbn [app newpos length]; [now rewrite Nat.add_0_r|].
  rewrite IH, <- app_assoc. do 2 f_equal. f_equal. lia.
Qed.
Lemma newpos_length i es : length (newpos i es) = nnew es.
Proof. revert i. unfold nnew. induction es as [|e es IH]; intros i; cbn; [reflexivity|]. rewrite app_length, IH. destruct (is_new (snd e)); reflexivity. Qed.
Lemma newpos_In es : forall i k, In k (newpos i es) <-> (i <= k /\ exists e, nth_error es (k - i) = Some e /\ is_new (snd e) = true).
Proof.
  induction es as [|e es IH]; intros i k; cbn [newpos].
  - split; [contradiction|]. intros (_ & e & He & _). destruct (k - i); discriminate.
  - rewrite in_app_iff, IH. split.
    + intros [Hk|(Hle & e' & He & Hn)].
      * destruct (is_new (snd e)) eqn:E; [|contradiction]. destruct Hk as [->|[]]. split; [lia|].
        exists e. rewrite Nat.sub_diag. auto.
      * split; [lia|]. exists e'. replace (k - i) with (S (k - S i)) by lia. auto.
    + intros (Hle & e' & He & Hn). destruct (Nat.eq_dec k i) as [->|Hne].
      * rewrite Nat.sub_diag in He. cbn in He. injection He as ->. left. rewrite Hn. now left.
      * right. split; [lia|]. replace (k - i) with (S (k - S i)) in He by lia. exists e'. auto.
Qed.
