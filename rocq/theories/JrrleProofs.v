From Verif Require Export JrrleModel.
From Coq Require Import ZifyBool ZifyNat.
Open Scope Z_scope.

Definition code_ok (c : Z) : Prop := 33 <= c <= 126.

(** the body of a record, without accumulators *)
Fixpoint ebody (rest : list Z) (ir ic : Z) : list Z :=
  match rest with
  | [] => emit ic ir
  | x :: rest' => if x =? ir then ebody rest' ir (ic + 1) else emit ic ir ++ ebody rest' x 1
  end.

Lemma enc_loop_ebody rest : forall ick ir ic i2,
  enc_loop rest ick ir ic i2 = (i2 ++ ebody rest ir ic, ick + sum rest).
Proof.
  induction rest as [|x rest IH]; intros ick ir ic i2; cbn [enc_loop ebody sum fold_right].
  - f_equal. lia.
  - change (fold_right Z.add 0 rest) with (sum rest). destruct (x =? ir); rewrite IH.
    + f_equal. lia.
    + rewrite app_assoc. f_equal. lia.
Qed.

Lemma emit_length ic ir : 1 <= ic -> Z.of_nat (length (emit ic ir)) <= ic /\ (1 <= length (emit ic ir))%nat.
Proof. intros H. unfold emit. destruct (ic =? 1) eqn:E; cbn; lia. Qed.

Lemma ebody_length rest : forall ir ic, 1 <= ic ->
  Z.of_nat (length (ebody rest ir ic)) <= ic + Z.of_nat (length rest).
Proof.
  induction rest as [|x rest IH]; intros ir ic H; cbn [ebody length].
  - pose proof (emit_length ic ir H). lia.
  - destruct (x =? ir).
    + specialize (IH ir (ic + 1) ltac:(lia)). lia.
    + rewrite app_length. specialize (IH x 1 ltac:(lia)). pose proof (emit_length ic ir H). lia.
Qed.

Lemma repeat_snoc {A} (x : A) n : repeat x n ++ [x] = repeat x (S n).
Proof. induction n as [|n IH]; cbn; [reflexivity|]. now rewrite IH. Qed.

Lemma expand_emit ic ir buf j acc fuel :
  1 <= ic <= 64 -> code_ok ir -> 0 <= j -> j + Z.of_nat (length (emit ic ir)) <= 67 ->
  Z.of_nat (length acc) + ic <= 69 -> (1 <= fuel)%nat ->
  expand (emit ic ir ++ buf) j acc fuel
  = expand buf (j + Z.of_nat (length (emit ic ir))) (acc ++ repeat ir (Z.to_nat ic)) (fuel - 1).
Proof.
  unfold code_ok. intros Hic Hir Hj Hlen Hacc Hf. destruct fuel as [|fuel]; [lia|].
  cbn [expand]. unfold emit in *. destruct (ic =? 1) eqn:E; cbn [app length] in *.
  - replace (67 <? j + 1) with false by lia. replace (ir =? 32) with false by lia.
    replace (127 <? ir) with false by lia. rewrite app_length. cbn [length].
    replace (69 <? Z.of_nat (length acc + 1)) with false by lia.
    replace (S fuel - 1)%nat with fuel by lia. replace (Z.to_nat ic) with 1%nat by lia. reflexivity.
  - replace (67 <? j + 1) with false by lia. replace (ic + 170 =? 32) with false by lia.
    replace (127 <? ic + 170) with true by lia. rewrite app_length, repeat_length.
    replace (ic + 170 - 170) with ic by lia.
    replace (69 <? Z.of_nat (length acc + Z.to_nat ic)) with false by lia.
    replace (S fuel - 1)%nat with fuel by lia. reflexivity.
Qed.

Lemma expand_ebody rest : forall ir ic buf j acc fuel,
  1 <= ic -> ic + Z.of_nat (length rest) <= 64 -> code_ok ir -> Forall code_ok rest ->
  0 <= j -> j + Z.of_nat (length (ebody rest ir ic)) <= 66 ->
  Z.of_nat (length acc) + ic + Z.of_nat (length rest) <= 69 ->
  (length (ebody rest ir ic) <= fuel)%nat ->
  exists fuel', (fuel - length (ebody rest ir ic) <= fuel')%nat /\
    expand (ebody rest ir ic ++ buf) j acc fuel
    = expand buf (j + Z.of_nat (length (ebody rest ir ic))) (acc ++ repeat ir (Z.to_nat ic) ++ rest) fuel'.
Proof.
  induction rest as [|x rest IH]; intros ir ic buf j acc fuel Hic Htot Hir Hrest Hj Hlen Hacc Hf;
    cbn [ebody length] in *.
  - exists (fuel - 1)%nat. pose proof (emit_length ic ir Hic). split; [lia|].
    rewrite expand_emit by (try assumption; lia). now rewrite app_nil_r.
  - apply Forall_cons_iff in Hrest. destruct Hrest as [Hx Hrest].
    destruct (x =? ir) eqn:E.
    + apply Z.eqb_eq in E. subst x.
      destruct (IH ir (ic + 1) buf j acc fuel ltac:(lia) ltac:(lia) Hir Hrest Hj Hlen ltac:(lia) Hf)
        as (fuel' & Hf' & Eq).
      exists fuel'. split; [exact Hf'|]. rewrite Eq. f_equal. f_equal.
      replace (Z.to_nat (ic + 1)) with (S (Z.to_nat ic)) by lia.
      rewrite <- repeat_snoc, <- app_assoc. reflexivity.
    + rewrite app_length in *. pose proof (emit_length ic ir Hic) as [He1 He2].
      pose proof (ebody_length rest x 1 ltac:(lia)) as Hb.
      rewrite <- app_assoc, expand_emit by (try assumption; lia).
      destruct (IH x 1 buf (j + Z.of_nat (length (emit ic ir))) (acc ++ repeat ir (Z.to_nat ic)) (fuel - 1)%nat)
        as (fuel' & Hf' & Eq); try assumption; try lia.
      { rewrite app_length, repeat_length. lia. }
      exists fuel'. split; [lia|]. rewrite Eq. f_equal; [lia|].
      rewrite <- app_assoc. do 2 f_equal.
Qed.

Lemma sum_nonneg l : Forall code_ok l -> 0 <= sum l.
Proof. intros H. induction H as [|x l Hx H IH]; cbn [sum fold_right]; [lia|]. unfold code_ok in Hx. change (fold_right Z.add 0 l) with (sum l). lia. Qed.

Lemma fmod_bound a : 0 <= a -> 0 <= fmod a 92 < 92.
Proof. intros H. unfold fmod. apply Z.rem_bound_pos; lia. Qed.

Lemma wrnenc_shape codes : codes <> [] -> (length codes <= 64)%nat -> Forall code_ok codes ->
  exists x rest, codes = x :: rest /\
    wrnenc codes = Some ((33 + fmod (sum codes) 92) :: ebody rest x 1) /\
    Z.of_nat (length (ebody rest x 1)) <= Z.of_nat (length codes).
Proof.
  intros Hne Hl Hc. destruct codes as [|x rest]; [congruence|].
  exists x, rest. split; [reflexivity|].
  pose proof (ebody_length rest x 1 ltac:(lia)) as Hb. cbn [length] in *.
  split; [|lia]. unfold wrnenc. cbn [length].
  replace (64 <? Z.of_nat (S (length rest))) with false by lia.
  rewrite enc_loop_ebody. cbn [app].
  replace (64 <? Z.of_nat (length (ebody rest x 1))) with false by lia. reflexivity.
Qed.

Lemma read72_short line : (length line <= 65)%nat ->
  exists k, read72 line = line ++ 32 :: repeat 32 k.
Proof.
  intros H. exists (71 - length line)%nat. unfold read72. rewrite firstn_all2 by lia.
  replace (72 - length line)%nat with (S (71 - length line)) by lia. reflexivity.
Qed.

Lemma expand_record ck x rest fuel :
  33 <= ck <= 126 -> (length rest <= 63)%nat -> code_ok x -> Forall code_ok rest -> (67 <= fuel)%nat ->
  expand (read72 (ck :: ebody rest x 1)) 0 [] (S fuel) = inl (Some (ck :: x :: rest)).
Proof.
  intros Hck Hl Hx Hrest Hfuel. pose proof (ebody_length rest x 1 ltac:(lia)) as Hb.
  destruct (read72_short (ck :: ebody rest x 1)) as (k & ->); [cbn [length]; lia|].
  cbn [app expand].
  replace (67 <? 0 + 1) with false by reflexivity.
  replace (ck =? 32) with false by lia. replace (127 <? ck) with false by lia.
  replace (69 <? Z.of_nat (length [ck])) with false by reflexivity.
  replace (0 + 1) with 1 by reflexivity.
  destruct (expand_ebody rest x 1 (32 :: repeat 32 k) 1 [ck] fuel) as (fuel' & Hf' & Eq);
    try assumption; try lia; try (cbn [length]; lia).
  rewrite Eq. destruct fuel' as [|fuel']; [lia|].
  cbn [expand]. replace (67 <? 1 + Z.of_nat (length (ebody rest x 1)) + 1) with false by lia.
  reflexivity.
Qed.

Lemma roundtrip codes : codes <> [] -> (length codes <= 64)%nat -> Forall code_ok codes ->
  exists line, wrnenc codes = Some line /\ (length line <= 65)%nat /\ wrndec line = DOk codes.
Proof.
  intros Hne Hl Hc. destruct (wrnenc_shape codes Hne Hl Hc) as (x & rest & -> & E & Hb).
  eexists. split; [exact E|]. cbn [length] in *. split; [lia|].
  pose proof (sum_nonneg _ Hc) as Hs. pose proof (fmod_bound _ Hs) as Hm.
  set (ck := 33 + fmod (sum (x :: rest)) 92) in *.
  apply Forall_cons_iff in Hc. destruct Hc as [Hx Hrest].
  unfold wrndec. rewrite expand_record; try assumption; try lia.
  cbn [length]. replace (64 <? Z.of_nat (S (length rest))) with false by lia.
  unfold ck. now rewrite Z.eqb_refl.
Qed.

Lemma emit_chars ic ir c : 1 <= ic <= 64 -> code_ok ir -> In c (emit ic ir) -> code_ok c \/ 172 <= c <= 234.
Proof. unfold emit, code_ok. intros Hic Hir. destruct (ic =? 1) eqn:E; cbn [In]; intros H; lia. Qed.

Lemma ebody_chars rest : forall ir ic c, 1 <= ic -> ic + Z.of_nat (length rest) <= 64 -> code_ok ir ->
  Forall code_ok rest -> In c (ebody rest ir ic) -> code_ok c \/ 172 <= c <= 234.
Proof.
  induction rest as [|x rest IH]; intros ir ic c Hic Ht Hir Hr; cbn [ebody length] in *.
  - apply emit_chars; [lia|assumption].
  - apply Forall_cons_iff in Hr. destruct Hr as [Hx Hr]. destruct (x =? ir).
    + apply IH; try assumption; lia.
    + rewrite in_app_iff. intros [H|H].
      * revert H. apply emit_chars; [lia|assumption].
      * revert H. apply IH; try assumption; lia.
Qed.

(* ------------------------------------------------------------------ *)
(** packing *)

Definition level_ok (v : bool * Z) : Prop := 0 <= snd v <= 4414.

Lemma pack_ok v : level_ok v -> code_ok (fst (pack v)) /\ code_ok (snd (pack v)).
Proof.
  destruct v as [neg i3]. unfold level_ok, code_ok, pack. cbn [fst snd].
  intros H. pose proof (Z.div_mod i3 94 ltac:(lia)). pose proof (Z.mod_pos_bound i3 94 ltac:(lia)).
  destruct neg; lia.
Qed.

Lemma unpack_pack v : level_ok v -> unpack (pack v) = v.
Proof.
  destruct v as [neg i3]. unfold level_ok, unpack, pack. cbn [fst snd].
  intros H. pose proof (Z.div_mod i3 94 ltac:(lia)). pose proof (Z.mod_pos_bound i3 94 ltac:(lia)).
  destruct neg.
  - replace (47 <=? i3 / 94 + 47 + 33 - 33) with true by lia. f_equal. lia.
  - replace (47 <=? i3 / 94 + 33 - 33) with false by lia. f_equal. lia.
Qed.

Lemma Forall_firstn {A} (P : A -> Prop) n l : Forall P l -> Forall P (firstn n l).
Proof. revert n; induction l as [|x l IH]; intros [|n] H; cbn; auto. inversion H; auto. Qed.
Lemma Forall_skipn {A} (P : A -> Prop) n l : Forall P l -> Forall P (skipn n l).
Proof. revert n; induction l as [|x l IH]; intros [|n] H; cbn; auto. inversion H; auto. Qed.

Lemma combine_map_fst_snd {A B} (l : list (A * B)) : combine (map fst l) (map snd l) = l.
Proof. induction l as [|[a b] l IH]; cbn; [reflexivity|]. now rewrite IH. Qed.

Lemma write_step v vs fuel :
  write_levels (v :: vs) (S fuel) =
      (let blk := map pack (firstn 64 (v :: vs)) in
      match wrnenc (map fst blk), wrnenc (map snd blk), write_levels (skipn 64 (v :: vs)) fuel with
      | Some r1, Some r2, Some rs => Some (r1 :: r2 :: rs)
      | _, _, _ => None
      end).
Proof. reflexivity. Qed.

Lemma levels_roundtrip fuel : forall vs, (length vs <= fuel)%nat -> Forall level_ok vs ->
  exists recs, write_levels vs fuel = Some recs /\
    (forall r, In r recs -> (length r <= 65)%nat) /\
    read_levels recs (Z.of_nat (length vs)) fuel = Some vs.
Proof.
  induction fuel as [|fuel IH]; intros vs Hl Hok.
  - destruct vs; [|cbn in Hl; lia]. exists []. split; [reflexivity|]. split; [intros r []|reflexivity].
  - destruct vs as [|v vs].
    { exists []. split; [reflexivity|]. split; [intros r []|reflexivity]. }
    rewrite write_step. cbv zeta. set (blk := map pack (firstn 64 (v :: vs))).
    assert (Hlen : length blk = Nat.min 64 (length (v :: vs))) by (unfold blk; now rewrite map_length, firstn_length).
    assert (Hne : blk <> []) by (unfold blk; cbn; discriminate).
    assert (Hblk : Forall (fun c => code_ok (fst c) /\ code_ok (snd c)) blk).
    { unfold blk. apply Forall_map. eapply Forall_impl; [|apply Forall_firstn; exact Hok]. intros a Ha. now apply pack_ok. }
    destruct (roundtrip (map fst blk)) as (r1 & E1 & L1 & D1).
    { destruct blk; [congruence|discriminate]. } { rewrite map_length. lia. }
    { apply Forall_map. eapply Forall_impl; [|exact Hblk]. intros a [Ha _]. exact Ha. }
    destruct (roundtrip (map snd blk)) as (r2 & E2 & L2 & D2).
    { destruct blk; [congruence|discriminate]. } { rewrite map_length. lia. }
    { apply Forall_map. eapply Forall_impl; [|exact Hblk]. intros a [_ Ha]. exact Ha. }
    destruct (IH (skipn 64 (v :: vs))) as (recs & E3 & L3 & R3).
    { rewrite skipn_length. cbn [length] in *. lia. } { now apply Forall_skipn. }
    rewrite E1, E2, E3. eexists. split; [reflexivity|]. split.
    { intros r [<-|[<-|H]]; auto. }
    set (N := Z.of_nat (length (v :: vs))) in *. assert (HN : 0 < N) by (unfold N; cbn [length]; lia).
    cbn [read_levels]. replace (N <=? 0) with false by lia. rewrite D1, D2, !map_length, Hlen.
    replace (Z.of_nat (Nat.min 64 (length (v :: vs))) =? Z.min 64 N) with true by (unfold N; lia). cbn [andb].
    assert (ER : read_levels recs (N - 64) fuel = Some (skipn 64 (v :: vs))).
    { rewrite skipn_length in R3. destruct (Z.le_gt_cases N 64) as [H|H].
      - replace (skipn 64 (v :: vs)) with (@nil (bool * Z)) in *.
        + destruct fuel; cbn [read_levels]; replace (N - 64 <=? 0) with true by lia; reflexivity.
        + symmetry. apply skipn_all2. unfold N in H. lia.
      - rewrite <- R3. f_equal. unfold N. lia. }
    rewrite ER. f_equal. rewrite combine_map_fst_snd. unfold blk. rewrite map_map.
    rewrite <- (firstn_skipn 64 (v :: vs)) at 3. f_equal.
    rewrite <- (map_id (firstn 64 (v :: vs))) at 2. apply map_ext_in. intros a Ha.
    apply unpack_pack. rewrite Forall_forall in Hok. apply Hok.
    rewrite <- (firstn_skipn 64 (v :: vs)). apply in_app_iff. now left.
Qed.

(* ------------------------------------------------------------------ *)
(** ** corruption of one literal character *)

Definition aligned (pre : list Z) : Prop := pre = [] \/ last pre 0 <= 127.

Lemma expand_pre fuel : forall pre suf j acc,
  aligned pre -> ~ In 32 pre ->
  (exists e, forall c, expand (pre ++ c :: suf) j acc fuel = inr e) \/
  (exists j' acc' fuel', forall c, expand (pre ++ c :: suf) j acc fuel = expand (c :: suf) j' acc' fuel').
Proof.
  induction fuel as [|fuel IH]; intros pre suf j acc Ha Hs.
  - left. exists DLong. reflexivity.
  - destruct pre as [|h pre].
    { right. exists j, acc, (S fuel). reflexivity. }
    cbn [app expand].
    destruct (67 <? j + 1). { left. exists DLong. reflexivity. }
    assert (Hh : (h =? 32) = false). { apply Z.eqb_neq. intros ->. apply Hs. now left. }
    rewrite Hh. destruct (127 <? h) eqn:E.
    + destruct pre as [|h2 pre].
      { exfalso. destruct Ha as [Ha|Ha]; [discriminate|]. cbn in Ha. lia. }
      cbn [app]. destruct (69 <? Z.of_nat (length (acc ++ repeat h2 (Z.to_nat (h - 170))))).
      { left. exists DUndef. reflexivity. }
      apply IH.
      * destruct pre as [|h3 pre]; [now left|right]. destruct Ha as [Ha|Ha]; [discriminate|exact Ha].
      * intros H. apply Hs. right. now right.
    + destruct (69 <? Z.of_nat (length (acc ++ [h]))).
      { left. exists DUndef. reflexivity. }
      apply IH.
      * destruct pre as [|h3 pre]; [now left|right]. destruct Ha as [Ha|Ha]; [discriminate|exact Ha].
      * intros H. apply Hs. now right.
Qed.

Lemma expand_acc fuel : forall buf j acc acc' r, length acc = length acc' ->
  expand buf j acc fuel = inl (Some r) ->
  exists d, r = acc ++ d /\ expand buf j acc' fuel = inl (Some (acc' ++ d)).
Proof.
  induction fuel as [|fuel IH]; intros buf j acc acc' r Hl H; [discriminate|].
  cbn [expand] in *. destruct (67 <? j + 1); [discriminate|].
  destruct buf as [|h buf]; [discriminate|].
  destruct (h =? 32).
  { injection H as <-. exists []. now rewrite !app_nil_r. }
  destruct (127 <? h).
  - destruct buf as [|h2 buf]; [discriminate|].
    rewrite app_length in *. rewrite <- Hl.
    destruct (69 <? Z.of_nat (length acc + length (repeat h2 (Z.to_nat (h - 170))))); [discriminate|].
    destruct (IH buf (j + 2) (acc ++ repeat h2 (Z.to_nat (h - 170))) (acc' ++ repeat h2 (Z.to_nat (h - 170))) r)
      as (d & -> & E); [rewrite !app_length; lia|exact H|].
    rewrite E. exists (repeat h2 (Z.to_nat (h - 170)) ++ d). now rewrite !app_assoc.
  - rewrite app_length in *. rewrite <- Hl.
    destruct (69 <? Z.of_nat (length acc + length [h])); [discriminate|].
    destruct (IH buf (j + 1) (acc ++ [h]) (acc' ++ [h]) r) as (d & -> & E); [rewrite !app_length; lia|exact H|].
    rewrite E. exists ([h] ++ d). now rewrite !app_assoc.
Qed.

Lemma sum_cons x l : sum (x :: l) = x + sum l.
Proof. reflexivity. Qed.
Lemma sum_app a b : sum (a ++ b) = sum a + sum b.
Proof. induction a as [|x a IH]; cbn [app]; [reflexivity|]. rewrite !sum_cons. lia. Qed.

Lemma read72_split pre suf : (length pre < 72)%nat ->
  exists suf', forall c', read72 (pre ++ c' :: suf) = pre ++ c' :: suf'.
Proof.
  intros H. exists (firstn (71 - length pre) suf ++ repeat 32 (72 - length (pre ++ 0 :: suf))).
  intros c. unfold read72. rewrite firstn_app. rewrite firstn_all2 by lia.
  destruct (72 - length pre)%nat as [|m] eqn:E; [lia|].
  rewrite <- app_assoc. f_equal. cbn [firstn app]. f_equal. f_equal; [f_equal; lia|].
  f_equal. rewrite !app_length. cbn [length]. lia.
Qed.

Lemma fmod_pos a : 0 <= a -> fmod a 92 = a mod 92.
Proof. intros H. unfold fmod. apply Z.rem_mod_nonneg; lia. Qed.

Lemma corruption pre suf v v' data :
  wrndec (pre ++ v :: suf) = DOk data -> Forall (fun c => 0 <= c) data ->
  aligned pre -> ~ In 32 pre -> (length pre < 72)%nat ->
  code_ok v -> code_ok v' -> v <> v' -> Z.abs (v - v') <> 92 ->
  wrndec (pre ++ v' :: suf) = DSum.
Proof.
  unfold wrndec, code_ok. intros H Hpos Ha Hs Hl Hv Hv' Hne H92.
  destruct (read72_split pre suf Hl) as (suf' & Hsuf). rewrite Hsuf in *.
  generalize dependent 73%nat. intros fuel H.
  destruct (expand_pre fuel pre suf' 0 [] Ha Hs) as [(e & He)|(j' & acc' & fuel' & He)].
  { rewrite He in H. pose proof (He v) as He'. clear - H He'.
    exfalso. revert He'. generalize 0. intros j. revert H.
    (* an error value is never DOk: errors produced by expand *)
    assert (NE : forall f b j0 a d, expand b j0 a f <> inr (DOk d)).
    { induction f as [|f IH]; intros b j0 a d; cbn [expand]; [discriminate|].
      destruct (67 <? j0 + 1); [discriminate|]. destruct b as [|h b]; [discriminate|].
      destruct (h =? 32); [discriminate|]. destruct (127 <? h).
      - destruct b as [|h2 b]; [discriminate|].
        destruct (69 <? Z.of_nat (length (a ++ repeat h2 (Z.to_nat (h - 170))))); [discriminate|]. apply IH.
      - destruct (69 <? Z.of_nat (length (a ++ [h]))); [discriminate|]. apply IH. }
    intros -> H. revert H. apply NE. }
  rewrite He in *.
  destruct fuel' as [|fuel']. { discriminate H. }
  cbn [expand] in *. destruct (67 <? j' + 1). { discriminate H. }
  replace (v =? 32) with false in H by lia. replace (127 <? v) with false in H by lia.
  replace (v' =? 32) with false by lia. replace (127 <? v') with false by lia.
  rewrite app_length in *. cbn [length] in *.
  destruct (69 <? Z.of_nat (length acc' + 1)). { discriminate H. }
  destruct (expand suf' (j' + 1) (acc' ++ [v]) fuel') as [[r|]|e] eqn:E; [|discriminate|].
  2:{ exfalso. assert (NE : forall f b j0 a d, expand b j0 a f <> inr (DOk d)).
    { induction f as [|f IH]; intros b j0 a d; cbn [expand]; [discriminate|].
      destruct (67 <? j0 + 1); [discriminate|]. destruct b as [|h b]; [discriminate|].
      destruct (h =? 32); [discriminate|]. destruct (127 <? h).
      - destruct b as [|h2 b]; [discriminate|].
        destruct (69 <? Z.of_nat (length (a ++ repeat h2 (Z.to_nat (h - 170))))); [discriminate|]. apply IH.
      - destruct (69 <? Z.of_nat (length (a ++ [h]))); [discriminate|]. apply IH. }
    subst e. revert E. apply NE. }
  destruct (expand_acc fuel' suf' (j' + 1) (acc' ++ [v]) (acc' ++ [v']) r) as (d & -> & E');
    [rewrite !app_length; reflexivity|exact E|].
  rewrite E'.
  destruct acc' as [|ck acc']; cbn [app] in *.
  - (* the checksum character itself *)
    destruct (64 <? Z.of_nat (length d)); [discriminate|].
    destruct (v =? 33 + fmod (sum d) 92) eqn:Ev; [|discriminate].
    replace (v' =? 33 + fmod (sum d) 92) with false by lia. reflexivity.
  - set (D := (acc' ++ [v]) ++ d) in *. set (D' := (acc' ++ [v']) ++ d).
    assert (HlD : length D' = length D). { unfold D, D'. rewrite !app_length. reflexivity. }
    rewrite HlD. destruct (64 <? Z.of_nat (length D)); [discriminate|].
    destruct (ck =? 33 + fmod (sum D) 92) eqn:Ec; [|discriminate]. injection H as <-.
    assert (Hsum : sum D' = sum D + (v' - v)).
    { unfold D, D'. rewrite !sum_app. unfold sum. cbn. lia. }
    assert (Hp : 0 <= sum D /\ 0 <= sum D').
    { assert (SP : forall l, Forall (fun c => 0 <= c) l -> 0 <= sum l).
      { intros l Hl'. induction Hl' as [|x l Hx Hl' IHl]; cbn [sum fold_right]; [lia|].
        change (fold_right Z.add 0 l) with (sum l). lia. }
      split; [now apply SP|]. apply SP. unfold D, D' in *.
      rewrite !Forall_app in *. destruct Hpos as [[P1 _] P2]. repeat split; auto.
      constructor; [lia|constructor]. }
    rewrite (fmod_pos (sum D)) in Ec by lia. rewrite (fmod_pos (sum D')) by lia.
    destruct (ck =? 33 + sum D' mod 92) eqn:Ec2; [|reflexivity].
    exfalso. assert (Hmod : sum D' mod 92 = sum D mod 92) by lia. rewrite Hsum in Hmod.
    pose proof (Z.div_mod (sum D) 92 ltac:(lia)) as D1. pose proof (Z.div_mod (sum D + (v' - v)) 92 ltac:(lia)) as D2.
    rewrite Hmod in D2.
    assert (Hk : v' - v = 92 * ((sum D + (v' - v)) / 92 - sum D / 92)) by lia.
    set (q := (sum D + (v' - v)) / 92 - sum D / 92) in *. lia.
Qed.
