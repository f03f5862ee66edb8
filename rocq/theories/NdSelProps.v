(** C10: n-dimensional selections.  See NdSelSpec.v for [legal] and [meets]. *)
From Verif Require Import NdSelProofs.
From Coq Require Import ZifyBool ZifyNat FinFun.

Definition no_ellipsis (es : list ent) : Prop := forall e, In e es -> is_ell (snd e) = false.

Lemma fill_noell es ax : no_ellipsis es ->
  fill_nd_sel_list es ax =
  match assemble' ax es [] ax 0 with
  | FOk l => if (length l =? length ax + nnew es)%nat then FOk l else FAssert
  | r => r
  end.
Proof.
  intros Hne. unfold fill_nd_sel_list.
  assert (Hsc : scan 0 es None [] = Some (None, newpos 0 es)) by (apply (scan_noell es 0 None []); exact Hne).
  assert (Ha : assemble ax (map Z.of_nat (newpos 0 es)) 0 es [] ax 0 = assemble' ax es [] ax 0).
  { apply assemble_flags. intros k e Hk. cbn [Nat.add].
    destruct (is_new (snd e)) eqn:E.
    - apply existsb_exists. exists (Z.of_nat k). split; [|lia]. apply in_map. apply newpos_In. split; [lia|].
      exists e. rewrite Nat.sub_0_r. auto.
    - destruct (existsb _ _) eqn:Ex; [|reflexivity]. apply existsb_exists in Ex. destruct Ex as (z & Hz & Ez).
      apply in_map_iff in Hz. destruct Hz as (m & <- & Hm). assert (m = k) by lia. subst m.
      apply newpos_In in Hm. destruct Hm as (_ & e' & He & Hn). rewrite Nat.sub_0_r in He. congruence. }
  assert (Hgen : match scan 0 es None [] with
    | Some (ell, news) => match ell with
        | None => match assemble ax (map Z.of_nat news) 0 es [] ax 0 with
                  | FOk full => if (length full =? length ax + length news)%nat then FOk full else FAssert
                  | e => e end
        | Some _ => FAssert end
    | None => FIndexError end = match assemble' ax es [] ax 0 with
  | FOk l => if (length l =? length ax + nnew es)%nat then FOk l else FAssert
  | r => r
  end).
  { rewrite Hsc, Ha, newpos_length. reflexivity. }
  destruct es as [|[[n|] s] es].
  - cbn in Hgen |- *. exact Hgen.
  - rewrite Hsc in Hgen |- *. exact Hgen.
  - pose proof (Hne (None, s) (or_introl eq_refl)) as Hs. cbn in Hs.
    destruct s, es; try discriminate; rewrite Hsc in Hgen |- *; exact Hgen.
Qed.

(** C10 without Ellipsis: for every list of distinct axis names and every
    selection, legal selections give exactly the selection they describe, and all
    other selections are errors. *)
Theorem selection_fills_intended_axes :
  forall ax es, NoDup ax -> user_axes ax -> no_ellipsis es ->
    (legal ax es -> exists l, fill_nd_sel_list es ax = FOk l /\ meets ax es l) /\
    (~ legal ax es -> fill_nd_sel_list es ax = FIndexError \/ fill_nd_sel_list es ax = FValueError).
Proof.
  intros ax es Hd Hu Hne. rewrite (fill_noell es ax Hne). destruct (assemble'_top ax es Hd Hu) as [H1 H2]. split.
  - intros Hl. destruct (H1 Hl) as (l & E & Hm). exists l. rewrite E. split; [|exact Hm].
    rewrite (no_other_newaxes _ _ _ Hm), Nat.eqb_refl. reflexivity.
  - intros Hl. destruct (H2 Hl) as [E|E]; rewrite E; auto.
Qed.
Print Assumptions selection_fills_intended_axes.

(** x=5, newaxis, then position: 7 goes to the axis after x *)
Example selection_nonvacuous :
  let x := NUser 0 in let y := NUser 1 in let z := NUser 2 in
  fill_nd_sel_list [(Some y, ITok 5); (None, INew); (None, ITok 7); (Some x, ITok 9)] [x; y; z]
  = FOk [(x, ITok 9, false); (y, ITok 5, false); (NNew 0, INew, true); (z, ITok 7, false)] /\
  fill_nd_sel_list [(Some y, ITok 5); (None, ITok 7); (None, ITok 8)] [x; y; z] = FIndexError /\
  fill_nd_sel_list [(None, ITok 5); (Some x, ITok 7)] [x; y; z] = FIndexError /\
  fill_nd_sel_list [(Some (NUser 8), ITok 7)] [x; y; z] = FValueError.
Proof. repeat split; vm_compute; reflexivity. Qed.

(** the legal case of the theorem is met *)
Example legal_nonvacuous :
  legal [NUser 0; NUser 1; NUser 2] [(Some (NUser 1), ITok 5); (None, INew); (None, ITok 7); (Some (NUser 0), ITok 9)] /\
  NoDup [NUser 0; NUser 1; NUser 2] /\ user_axes [NUser 0; NUser 1; NUser 2].
Proof.
  split; [|split].
  - destruct (assemble'_top [NUser 0; NUser 1; NUser 2] [(Some (NUser 1), ITok 5); (None, INew); (None, ITok 7); (Some (NUser 0), ITok 9)]) as [_ H].
    + repeat constructor; cbn; intros Hc; repeat destruct Hc as [Hc|Hc]; try discriminate; exact Hc.
    + intros i Hc. cbn in Hc. repeat destruct Hc as [Hc|Hc]; try discriminate; exact Hc.
    + intros b nm0 s a E. destruct b as [|e0 [|e1 [|e2 [|e3 b]]]]; cbn in E; injection E; intros; subst.
      * split; [cbn; auto|]. intros b1 e b2 Eb. destruct b1; discriminate.
      * exact I.
      * cbn. lia.
      * split; [cbn; auto|]. intros b1 e b2 Eb Hn Ht.
        destruct b1 as [|f0 [|f1 [|f2 b1]]]; cbn in Eb; injection Eb; intros; subst; cbn in *; try discriminate; try lia.
        destruct b1; discriminate.
      * destruct b; discriminate.
  - repeat constructor; cbn; intros Hc; repeat destruct Hc as [Hc|Hc]; try discriminate; exact Hc.
  - intros i Hc. cbn in Hc. repeat destruct Hc as [Hc|Hc]; try discriminate; exact Hc.
Qed.

(** * Ellipsis *)
Definition nsel (es : list ent) : nat := length es - nnew es.     (* selectors that use up an axis *)
Definition only_newaxes_named (es : list ent) : Prop := forall n s, In (Some n, s) es -> s = INew.

Lemma nnew_le es : nnew es <= length es.
Proof. unfold nnew. induction es as [|e es IH]; cbn; [lia|]. destruct (is_new (snd e)); cbn; lia. Qed.
Lemma nnew_app a b : nnew (a ++ b) = nnew a + nnew b.
Proof. unfold nnew. now rewrite filter_app, app_length. Qed.
Lemma nnew_repeat k : nnew (repeat (None, IFull) k) = 0.
Proof. induction k; [reflexivity|exact IHk]. Qed.
Lemma scan_app l1 : forall i l2 ell news, no_ellipsis l1 ->
  scan i (l1 ++ l2) ell news = scan (i + length l1) l2 ell (news ++ newpos i l1).
Proof.
  induction l1 as [|[n s] l1 IH]; intros i l2 ell news H; cbn [app scan newpos length].
  - rewrite Nat.add_0_r, app_nil_r. reflexivity.
  - pose proof (H (n, s) (or_introl eq_refl)) as Hs. cbn in Hs.
    assert (H' : no_ellipsis l1) by (intros e He; apply H; now right).
    destruct s; try discriminate; cbn [snd is_new app]; rewrite IH by exact H'; rewrite <- ?app_assoc;
      replace (S i + length l1) with (i + S (length l1)) by lia; reflexivity.
Qed.
Lemma named_le es : only_newaxes_named es ->
  length (filter (fun e : ent => match fst e with Some _ => true | None => false end) es) =
  length (filter (fun e : ent => match fst e with Some _ => is_new (snd e) | None => false end) es).
Proof.
  intros H. induction es as [|[[n|] s] es IH]; cbn; [reflexivity| |].
  - rewrite (H n s (or_introl eq_refl)). cbn. f_equal. apply IH. intros m t Hm. apply (H m t). now right.
  - apply IH. intros m t Hm. apply (H m t). now right.
Qed.

Lemma scan_ell pre post nm0 : no_ellipsis pre -> no_ellipsis post ->
  scan 0 (pre ++ (nm0, IEll) :: post) None [] = Some (Some (length pre), newpos 0 pre ++ newpos (S (length pre)) post).
Proof.
  intros H1 H2. rewrite scan_app by exact H1. cbn [scan app Nat.add]. rewrite scan_noell by exact H2. reflexivity.
Qed.
Lemma fill_ell pre post ax : no_ellipsis pre -> no_ellipsis post -> only_newaxes_named (pre ++ post) -> pre ++ post <> [] ->
  let n_fill := (Z.of_nat (length ax) - Z.of_nat (nsel (pre ++ post)))%Z in
  fill_nd_sel_list (pre ++ (None, IEll) :: post) ax =
  match assemble ax (map (fun i => if (i <? length pre)%nat then Z.of_nat i else (Z.of_nat i + n_fill - 1)%Z)
                       (newpos 0 pre ++ newpos (S (length pre)) post)) 0
          (pre ++ repeat (None, IFull) (Z.to_nat n_fill) ++ post) [] ax 0 with
  | FOk l => if (length l =? length ax + nnew (pre ++ post))%nat then FOk l else FAssert
  | r => r
  end.
Proof.
  intros H1 H2 H3 Hne n_fill. unfold fill_nd_sel_list.
  assert (Hnot : forall (A : Type) (x y : A), match pre ++ (None, IEll) :: post with [(None, IEll)] => x | _ => y end = y).
  { intros A x y. destruct pre as [|p [|q pre]].
    - destruct post as [|p post]; [exfalso; apply Hne; reflexivity|]. reflexivity.
    - destruct p as [[n|] s]; [reflexivity|]. destruct s; reflexivity.
    - destruct p as [[n|] s]; [reflexivity|]. destruct s; reflexivity. }
  rewrite Hnot. rewrite (scan_ell pre post None H1 H2).
  assert (Hnn : length (newpos 0 pre ++ newpos (S (length pre)) post) = nnew (pre ++ post)).
  { rewrite app_length, !newpos_length, nnew_app. reflexivity. }
  rewrite Hnn.
  assert (H3' : only_newaxes_named pre /\ only_newaxes_named post).
  { split; intros n s Hi; apply (H3 n s); apply in_or_app; auto. }
  assert (Hnamed : (length (filter (fun e : ent => match fst e with Some _ => is_new (snd e) | None => false end) (pre ++ (None, IEll) :: post)) <?
                    length (filter (fun e : ent => match fst e with Some _ => true | None => false end) (pre ++ (None, IEll) :: post)))%nat = false).
  { rewrite (named_le (pre ++ (None, IEll) :: post)); [apply Nat.ltb_irrefl|].
    intros n s Hi. apply in_app_or in Hi. destruct Hi as [Hi|[Hi|Hi]]; [|discriminate|]; apply (H3 n s); apply in_or_app; auto. }
  rewrite Hnamed.
  assert (Hf : (Z.of_nat (length ax) + Z.of_nat (nnew (pre ++ post)) - (Z.of_nat (length (pre ++ (None, IEll) :: post)) - 1))%Z = n_fill).
  { unfold n_fill, nsel. pose proof (nnew_le (pre ++ post)) as Hle. rewrite !app_length in *. cbn [length]. lia. }
  rewrite Hf. rewrite firstn_app, Nat.sub_diag, firstn_all, app_nil_r.
  replace (skipn (S (length pre)) (pre ++ (None, IEll) :: post)) with post.
  2:{ rewrite skipn_app. replace (S (length pre) - length pre) with 1 by lia. rewrite skipn_all2 by lia. reflexivity. }
  reflexivity.
Qed.

Lemma assemble'_fulls ax rem : forall full nu, assemble' ax (repeat (None, IFull) (length rem)) full rem nu = FOk (full ++ map full_out rem).
Proof.
  induction rem as [|r rem IH]; intros full nu; cbn [length repeat assemble' is_new map]; [reflexivity|].
  rewrite IH, <- app_assoc. reflexivity.
Qed.

(** C10: an Ellipsis stands for exactly the whole axes that are missing: the
    selection behaves like the one with those written out. *)
Theorem ellipsis_absorbs_missing_axes :
  forall ax pre post, no_ellipsis pre -> no_ellipsis post -> only_newaxes_named (pre ++ post) ->
    nsel (pre ++ post) <= length ax ->
    fill_nd_sel_list (pre ++ (None, IEll) :: post) ax =
    fill_nd_sel_list (pre ++ repeat (None, IFull) (length ax - nsel (pre ++ post)) ++ post) ax.
Proof.
  intros ax pre post H1 H2 H3 Hn.
  assert (Hno : no_ellipsis (pre ++ repeat (None, IFull) (length ax - nsel (pre ++ post)) ++ post)).
  { intros e He. apply in_app_or in He. destruct He as [He|He]; [exact (H1 e He)|].
    apply in_app_or in He. destruct He as [He|He]; [|exact (H2 e He)]. apply repeat_spec in He. subst. reflexivity. }
  rewrite (fill_noell _ ax Hno).
  destruct (pre ++ post) as [|e0 l0] eqn:Epp.
  { apply app_eq_nil in Epp. destruct Epp as [-> ->]. cbn [app].
    change (nsel []) with 0. rewrite app_nil_r, Nat.sub_0_r, assemble'_fulls, nnew_repeat.
    cbn [app]. rewrite map_length, Nat.add_0_r, Nat.eqb_refl. reflexivity. }
  rewrite <- Epp in *.
  rewrite (fill_ell pre post ax H1 H2 H3) by (rewrite Epp; discriminate). cbv zeta.
  set (k := length ax - nsel (pre ++ post)).
  replace (Z.of_nat (length ax) - Z.of_nat (nsel (pre ++ post)))%Z with (Z.of_nat k) by lia.
  rewrite Nat2Z.id.
  replace (nnew (pre ++ repeat (None, IFull) k ++ post)) with (nnew (pre ++ post)).
  2:{ rewrite !nnew_app, nnew_repeat. lia. }
  rewrite assemble_flags; [reflexivity|].
  intros j e Hj. cbn [Nat.add].
  assert (Hin : In (Z.of_nat j) (map (fun i => if (i <? length pre)%nat then Z.of_nat i else (Z.of_nat i + Z.of_nat k - 1)%Z)
                       (newpos 0 pre ++ newpos (S (length pre)) post)) <-> is_new (snd e) = true).
  { rewrite in_map_iff. split.
    - intros (i & Ei & Hi). apply in_app_or in Hi. destruct Hi as [Hi|Hi]; apply newpos_In in Hi; destruct Hi as (Hle & e' & He' & Hn').
      + rewrite Nat.sub_0_r in He'. assert (Hil : i < length pre) by (apply nth_error_Some; congruence).
        replace (i <? length pre) with true in Ei by lia. assert (i = j) by lia. subst i.
        rewrite nth_error_app1 in Hj by exact Hil. congruence.
      + replace (i <? length pre) with false in Ei by lia. assert (Ej : j = i + k - 1) by lia.
        rewrite nth_error_app2 in Hj by lia. rewrite nth_error_app2 in Hj by (rewrite repeat_length; lia).
        rewrite repeat_length in Hj. replace (j - length pre - k) with (i - S (length pre)) in Hj by lia. congruence.
    - intros Hne. destruct (lt_dec j (length pre)) as [Hl|Hg].
      + exists j. replace (j <? length pre) with true by lia. split; [reflexivity|]. apply in_or_app. left. apply newpos_In.
        split; [lia|]. rewrite Nat.sub_0_r. rewrite nth_error_app1 in Hj by exact Hl. eauto.
      + rewrite nth_error_app2 in Hj by lia. destruct (lt_dec (j - length pre) k) as [Hl2|Hg2].
        * rewrite nth_error_app1 in Hj by (rewrite repeat_length; lia). apply nth_error_In, repeat_spec in Hj. subst e. discriminate.
        * rewrite nth_error_app2 in Hj by (rewrite repeat_length; lia). rewrite repeat_length in Hj.
          exists (j + 1 - k). replace (j + 1 - k <? length pre) with false by lia. split; [lia|].
          apply in_or_app. right. apply newpos_In. split; [lia|].
          replace (j + 1 - k - S (length pre)) with (j - length pre - k) by lia. eauto. }
  match goal with |- existsb ?f ?l = _ => destruct (existsb f l) eqn:Ex end.
  - apply existsb_exists in Ex. destruct Ex as (z & Hz & Ez). assert (z = Z.of_nat j) by lia. subst z. apply Hin in Hz. congruence.
  - destruct (is_new (snd e)) eqn:En; [|reflexivity]. exfalso.
    assert (Hz := proj2 Hin eq_refl). rewrite <- not_true_iff_false in Ex. apply Ex. apply existsb_exists. exists (Z.of_nat j). split; [exact Hz|lia].
Qed.
Print Assumptions ellipsis_absorbs_missing_axes.

Example ellipsis_nonvacuous :
  let x := NUser 0 in let y := NUser 1 in let z := NUser 2 in
  fill_nd_sel_list [(None, ITok 5); (None, IEll); (Some (NUser 9), INew); (None, ITok 7)] [x; y; z]
  = FOk [(x, ITok 5, false); (y, IFull, false); (NUser 9, INew, true); (z, ITok 7, false)].
Proof. vm_compute. reflexivity. Qed.

(** C10: two Ellipses are an error, and so is an Ellipsis with a named selector. *)
Theorem ellipsis_misuse_is_an_error :
  forall ax pre mid post n1 n2 n s,
    fill_nd_sel_list (pre ++ (n1, IEll) :: mid ++ (n2, IEll) :: post) ax = FIndexError /\
    (s <> INew -> s <> IEll -> no_ellipsis (pre ++ post) ->
     forall q1 q2, pre ++ post = q1 ++ (Some n, s) :: q2 ->
       fill_nd_sel_list (pre ++ (n1, IEll) :: post) ax = FIndexError).
Proof.
  intros ax pre mid post n1 n2 n s. split.
  - assert (Hsome : forall l i a news, scan i (l ++ (n2, IEll) :: post) (Some a) news = None).
    { intros l. induction l as [|[m t] l IH]; intros i a news; cbn [app scan]; [reflexivity|]. destruct t; try apply IH. reflexivity. }
    assert (Hall : forall l i ell news, scan i (l ++ (n1, IEll) :: mid ++ (n2, IEll) :: post) ell news = None).
    { induction l as [|[m t] l IH]; intros i ell news; cbn [app scan].
      - destruct ell; [reflexivity|apply Hsome].
      - destruct t; try apply IH. destruct ell; [reflexivity|]. apply IH. }
    unfold fill_nd_sel_list. rewrite Hall.
    destruct pre as [|[[m|] t] pre]; cbn [app].
    + destruct n1; [reflexivity|]. destruct mid; reflexivity.
    + reflexivity.
    + destruct t; try reflexivity. destruct pre; reflexivity.
  - intros Hs1 Hs2 Hne q1 q2 Hq.
    assert (Hpre : no_ellipsis pre) by (intros e He; apply Hne, in_or_app; auto).
    assert (Hpost : no_ellipsis post) by (intros e He; apply Hne, in_or_app; auto).
    unfold fill_nd_sel_list. rewrite (scan_ell pre post n1 Hpre Hpost).
    assert (Hlt : (length (filter (fun e : ent => match fst e with Some _ => is_new (snd e) | None => false end) (pre ++ (n1, IEll) :: post)) <?
                    length (filter (fun e : ent => match fst e with Some _ => true | None => false end) (pre ++ (n1, IEll) :: post)))%nat = true).
    { assert (Hle : forall l : list ent, length (filter (fun e : ent => match fst e with Some _ => is_new (snd e) | None => false end) l) <=
                    length (filter (fun e : ent => match fst e with Some _ => true | None => false end) l)).
      { induction l as [|[[m|] t] l IH]; cbn; [lia| |exact IH]. destruct (is_new t); cbn; lia. }
      assert (Hlt : length (filter (fun e : ent => match fst e with Some _ => is_new (snd e) | None => false end) (pre ++ post)) <
                    length (filter (fun e : ent => match fst e with Some _ => true | None => false end) (pre ++ post))).
      { rewrite Hq, !filter_app, !app_length. cbn [filter fst snd]. pose proof (Hle q1). pose proof (Hle q2).
        destruct s; cbn [is_new length]; try congruence; lia. }
      rewrite !filter_app, !app_length in *. cbn [filter fst snd is_new]. destruct n1; cbn [length]; lia. }
    cbv zeta. rewrite Hlt.
    destruct pre as [|[[m|] t] pre]; cbn [app].
    + destruct n1; [reflexivity|]. destruct post; [|reflexivity]. destruct q1; discriminate.
    + reflexivity.
    + destruct t; try reflexivity. destruct pre; reflexivity.
Qed.
Print Assumptions ellipsis_misuse_is_an_error.

(** C10: too many positional selectors around an Ellipsis are an error. *)
Lemma count_hits (newax : list Z) n : forall i,
  length (filter (fun j => existsb (Z.eqb (Z.of_nat j)) newax) (seq i n)) <= length newax.
Proof.
  intros i. rewrite <- (map_length Z.of_nat). apply NoDup_incl_length.
  - apply FinFun.Injective_map_NoDup; [intros a b; lia|]. apply NoDup_filter, seq_NoDup.
  - intros z Hz. apply in_map_iff in Hz. destruct Hz as (j & <- & Hj). apply filter_In in Hj. destruct Hj as [_ Hj].
    apply existsb_exists in Hj. destruct Hj as (z & Hz & E). assert (z = Z.of_nat j) by lia. now subst.
Qed.
Lemma assemble_overlong ax newax es : forall i full rem nu,
  (forall e, In e es -> fst e = None) ->
  length rem < length (filter (fun j => negb (existsb (Z.eqb (Z.of_nat j)) newax)) (seq i (length es))) ->
  assemble ax newax i es full rem nu = FIndexError.
Proof.
  induction es as [|[name s] es IH]; intros i full rem nu Hun Hl; cbn [length seq filter assemble] in *; [lia|].
  pose proof (Hun _ (or_introl eq_refl)) as E. cbn in E. subst name.
  assert (Hun' : forall e, In e es -> fst e = None) by (intros; apply Hun; now right).
  destruct (existsb (Z.eqb (Z.of_nat i)) newax) eqn:Ex; cbn [negb] in Hl.
  - apply IH; assumption.
  - destruct rem as [|r rem]; [reflexivity|]. apply IH; [assumption|]. cbn [length] in Hl. lia.
Qed.
Theorem too_many_positional_selectors_is_an_error :
  forall ax pre post, no_ellipsis pre -> no_ellipsis post -> (forall e, In e (pre ++ post) -> fst e = None) ->
    length ax < nsel (pre ++ post) ->
    fill_nd_sel_list (pre ++ (None, IEll) :: post) ax = FIndexError.
Proof.
  intros ax pre post H1 H2 Hun Hn.
  assert (H3 : only_newaxes_named (pre ++ post)) by (intros n s Hi; apply Hun in Hi; discriminate).
  rewrite (fill_ell pre post ax H1 H2 H3).
  2:{ intros E. rewrite E in Hn. cbn in Hn. lia. }
  cbv zeta. replace (Z.to_nat _) with 0 by lia. cbn [repeat app].
  rewrite assemble_overlong; [reflexivity|exact Hun|].
  set (newax := map _ _).
  assert (Hlen : length newax = nnew (pre ++ post)).
  { unfold newax. rewrite map_length, app_length, !newpos_length, nnew_app. reflexivity. }
  pose proof (count_hits newax (length (pre ++ post)) 0) as Hh.
  assert (Htot : forall (f : nat -> bool) l, length (filter f l) + length (filter (fun j => negb (f j)) l) = length l).
  { intros f l. induction l as [|x l IH]; cbn; [reflexivity|]. destruct (f x); cbn; lia. }
  specialize (Htot (fun j => existsb (Z.eqb (Z.of_nat j)) newax) (seq 0 (length (pre ++ post)))). rewrite seq_length in Htot.
  unfold nsel in Hn. cbv beta in Htot. lia.
Qed.
Print Assumptions too_many_positional_selectors_is_an_error.

(** With a named newaxis the same mistake can be accepted: `fld[..., :, 1, "x=None"]`
    on a field whose only axis is x selects two axes and adds a third called x;
    it is accepted, the newaxis replaces the selector of x, and 1 is labelled as a
    new axis. *)
Theorem overlong_selection_accepted_refuted :
  exists ax es l, NoDup ax /\ user_axes ax /\ length ax < nsel es - 1 /\
    fill_nd_sel_list es ax = FOk l /\ In (NNew 0, ITok 1, true) l.
Proof.
  exists [NUser 0], [(None, IEll); (None, IFull); (None, ITok 1); (Some (NUser 0), INew)]. eexists.
  split; [repeat constructor; cbn; tauto|].
  split; [intros i Hc; cbn in Hc; destruct Hc; [discriminate|assumption]|].
  split; [cbn; lia|]. split; [vm_compute; reflexivity|]. cbn. auto.
Qed.
Print Assumptions overlong_selection_accepted_refuted.

(** * Vector components *)
Definition is_comp (comp : list nm) (s : option nm) : bool :=
  match s with Some x => existsb (nm_eqb x) comp | None => false end.

(** prune_comp_sel takes out the one selector that names a vector component and
    reports that component; without one the list is unchanged and all components
    are kept; with two it is an IndexError. *)
Theorem prune_comp_sel_spec :
  forall l comp,
    (forall s, In s l -> is_comp comp s = false) /\ prune_comp_sel l comp = Some (l, None) \/
    (exists l1 x l2, l = l1 ++ Some x :: l2 /\ In x comp /\
       (forall s, In s (l1 ++ l2) -> is_comp comp s = false) /\
       exists c, prune_comp_sel l comp = Some (l1 ++ l2, Some c) /\ nth_error comp c = Some x) \/
    (exists l1 x l2 y l3, l = l1 ++ Some x :: l2 ++ Some y :: l3 /\ In x comp /\ In y comp /\
       prune_comp_sel l comp = None).
Proof.
  intros l comp. unfold prune_comp_sel.
  assert (Hnone : forall l i, (forall s, In s l -> is_comp comp s = false) -> forall f, prune_scan comp i l f = Some f).
  { induction l0 as [|s l0 IH]; intros i H f; cbn [prune_scan]; [reflexivity|].
    pose proof (H s (or_introl eq_refl)) as Hs. destruct s as [x|].
    - cbn in Hs. rewrite index_of_pos, Hs. apply IH. intros; apply H; now right.
    - apply IH. intros; apply H; now right. }
  assert (Hsome : forall l i p, (exists l1 y l2, l = l1 ++ Some y :: l2 /\ In y comp) -> prune_scan comp i l (Some p) = None).
  { induction l0 as [|s l0 IH]; intros i p (l1 & y & l2 & E & Hy); [destruct l1; discriminate|]. cbn [prune_scan].
    destruct s as [x|].
    - rewrite index_of_pos. destruct (existsb (nm_eqb x) comp) eqn:Ex; [reflexivity|].
      apply IH. destruct l1 as [|z l1]; cbn in E; injection E as E1 E2.
      + subst x. apply existsb_nm in Hy. congruence.
      + eauto.
    - apply IH. destruct l1 as [|z l1]; cbn in E; [discriminate|]. injection E as E1 E2. eauto. }
  assert (Hdec : forall l : list (option nm), (forall s, In s l -> is_comp comp s = false) \/
     exists l1 x l2, l = l1 ++ Some x :: l2 /\ In x comp /\ forall s, In s l1 -> is_comp comp s = false).
  { induction l0 as [|s l0 IH]; [left; contradiction|]. destruct (is_comp comp s) eqn:Es.
    - right. destruct s as [x|]; [|discriminate]. exists [], x, l0. split; [reflexivity|]. split; [apply existsb_nm; exact Es|contradiction].
    - destruct IH as [IH|(l1 & x & l2 & -> & Hx & H1)].
      + left. intros t [<-|Ht]; auto.
      + right. exists (s :: l1), x, l2. split; [reflexivity|]. split; [exact Hx|]. intros t [<-|Ht]; auto. }
  assert (Happ : forall l1 i l2 f, (forall s, In s l1 -> is_comp comp s = false) -> prune_scan comp i (l1 ++ l2) f = prune_scan comp (i + length l1) l2 f).
  { induction l1 as [|s l1 IH]; intros i l2 f H; cbn [app length prune_scan]; [now rewrite Nat.add_0_r|].
    pose proof (H s (or_introl eq_refl)) as Hs. replace (i + S (length l1)) with (S i + length l1) by lia.
    destruct s as [x|]; [cbn in Hs; rewrite index_of_pos, Hs|]; apply IH; intros; apply H; now right. }
  destruct (Hdec l) as [H|(l1 & x & l2 & -> & Hx & H1)].
  - left. rewrite (Hnone l 0 H None). auto.
  - right. rewrite Happ by exact H1. cbn [Nat.add prune_scan]. rewrite index_of_pos.
    rewrite (proj2 (existsb_nm x comp) Hx).
    destruct (Hdec l2) as [H2|(l3 & y & l4 & -> & Hy & H3)].
    + left. exists l1, x, l2. split; [reflexivity|]. split; [exact Hx|]. split.
      * intros s Hs. apply in_app_or in Hs. destruct Hs; auto.
      * exists (pos x comp). rewrite (Hnone l2 _ H2). unfold remove_at.
        rewrite firstn_app, Nat.sub_diag, firstn_all, app_nil_r.
        rewrite skipn_app. replace (S (length l1) - length l1) with 1 by lia. rewrite skipn_all2 by lia.
        split; [reflexivity|apply pos_In, Hx].
    + right. exists l1, x, l3, y, l4. split; [reflexivity|]. split; [exact Hx|]. split; [exact Hy|].
      rewrite Hsome; [reflexivity|]. eauto.
Qed.
Print Assumptions prune_comp_sel_spec.

Example prune_nonvacuous :
  let x := NUser 0 in let y := NUser 1 in
  prune_comp_sel [None; Some y; Some (NUser 7)] [x; y] = Some ([None; Some (NUser 7)], Some 1) /\
  prune_comp_sel [None; Some y; Some x] [x; y] = None.
Proof. repeat split; vm_compute; reflexivity. Qed.
