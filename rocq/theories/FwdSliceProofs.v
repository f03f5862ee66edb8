From Verif Require Import NdIndex.
From Coq Require Import ZifyBool ZifyNat.
Open Scope Z_scope.

Lemma prange_fwd a b st : 0 < st -> a < b ->
  prange a b st = prog a st (Z.to_nat ((b - a - 1) / st + 1)).
Proof.
  intros Hs Hab. unfold prange, range_len.
  replace (0 <? st) with true by lia. replace (a <? b) with true by lia. reflexivity.
Qed.

Lemma prange_bwd a b st : st < 0 -> b < a ->
  prange a b st = prog a st (Z.to_nat ((a - b - 1) / (- st) + 1)).
Proof.
  intros Hs Hab. unfold prange, range_len.
  replace (0 <? st) with false by lia. replace (b <? a) with true by lia. reflexivity.
Qed.

Lemma prange_nil a b st : st <> 0 -> (0 < st -> b <= a) -> (st < 0 -> a <= b) -> prange a b st = [].
Proof.
  intros Hs H1 H2. unfold prange, range_len.
  destruct (0 <? st) eqn:E.
  - replace (a <? b) with false by lia. reflexivity.
  - replace (b <? a) with false by lia. reflexivity.
Qed.

(** reading [lo + ((b-1-lo) mod st), b) forward and reversing is counting down from b-1 *)
Lemma rev_aligned lo b st : 0 < st -> lo < b ->
  rev (prange (lo + (b - 1 - lo) mod st) b st) = prange (b - 1) (lo - 1) (- st).
Proof.
  intros Hst Hlo.
  pose proof (Z.mod_pos_bound (b - 1 - lo) st Hst) as Hm.
  pose proof (Z.mod_le (b - 1 - lo) st ltac:(lia) Hst) as Hle.
  pose proof (Z.div_mod (b - 1 - lo) st ltac:(lia)) as Hdm.
  set (m := (b - 1 - lo) mod st) in *. set (q := (b - 1 - lo) / st) in *.
  assert (0 <= q) by (subst q; apply Z.div_pos; lia).
  rewrite prange_fwd by lia.
  replace (b - (lo + m) - 1) with (q * st) by lia.
  rewrite Z.div_mul by lia.
  rewrite prange_bwd by lia.
  replace (b - 1 - (lo - 1) - 1) with (b - 1 - lo) by lia.
  rewrite Z.opp_involutive. fold q.
  rewrite prog_rev. f_equal. rewrite Z2Nat.id by lia.
  replace (q + 1 - 1) with q by lia. lia.
Qed.

Lemma map_flip_prange c a b st : st <> 0 ->
  map (fun i => c - i) (prange a b st) = prange (c - a) (c - b) (- st).
Proof.
  intros Hst. unfold prange. rewrite prog_map_flip. f_equal. f_equal.
  unfold range_len. destruct (0 <? st) eqn:E.
  - replace (0 <? - st) with false by lia.
    replace (c - b <? c - a) with (a <? b) by lia.
    destruct (a <? b); [|reflexivity]. rewrite Z.opp_involutive. do 2 f_equal. lia.
  - replace (0 <? - st) with true by lia.
    replace (c - a <? c - b) with (b <? a) by lia.
    destruct (b <? a); [|reflexivity]. do 2 f_equal. lia.
Qed.

Lemma map_id_prange (l : list Z) : map (fun i : Z => i) l = l.
Proof. apply map_id. Qed.

(** selection by an already normalised forward slice *)
Lemma sel_norm L a b st : 0 < st -> 0 <= a <= L ->
  match b with Some b => 0 <= b | None => True end ->
  sel L (PS (Some a) b (Some st)) = Some (prange a (match b with Some b => Z.min L b | None => L end) st).
Proof.
  intros Hst Ha Hb. unfold sel, slice_start, slice_stop, step_of, adj. cbn [p_start p_stop p_step odef].
  replace (st =? 0) with false by lia. replace (0 <? st) with true by lia.
  replace (a <? 0) with false by lia. f_equal. f_equal; [lia|].
  destruct b as [b|]; [|reflexivity]. replace (b <? 0) with false by lia. lia.
Qed.

Definition dir_ok (d : second) : Prop := d = SFwd \/ d = SRev.
Definition apply_dir (d : second) (l : list Z) : list Z := match d with SRev => rev l | _ => l end.
Definition flip_ix (r : bool) (L i : Z) : Z := if r then L - 1 - i else i.

(** the start = L, step < 0, not reversed case, on which the code is wrong *)
Definition bad_start (L : Z) (s : pslice) (r : bool) : Prop :=
  r = false /\ step_of s < 0 /\ p_start s = Some L.

Lemma fwd_slice_correct L s r f d :
  0 <= L -> fwd_slice L s r = Ok (f, d) -> ~ bad_start L s r ->
  exists fi si, sel L f = Some fi /\ sel L s = Some si /\ 0 < step_of f /\ dir_ok d /\
                apply_dir d fi = map (flip_ix r L) si.
Proof.
  intros HL H Hbad. unfold fwd_slice in H.
  set (step := match p_step s with Some x => x | None => 1 end) in *.
  set (start0 := match p_start s with Some x => x | None => 0 end) in *.
  set (stop0 := match p_stop s with Some x => x | None => L end) in *.
  cbv zeta in H.
  set (start := if start0 <? 0 then start0 + L else start0) in *.
  set (stop := if stop0 <? 0 then stop0 + L else stop0) in *.
  destruct ((start <? 0) || (stop <? 0)) eqn:E1; [discriminate|].
  destruct ((L <? start) || (L <? stop)) eqn:E2; [discriminate|].
  assert (Hstep : step_of s = step) by reflexivity.
  (* facts about the requested selection *)
  assert (Hsel : step <> 0 -> sel L s = Some (prange (slice_start L s) (slice_stop L s) step)).
  { intros Hs. unfold sel. rewrite Hstep. replace (step =? 0) with false by lia. reflexivity. }
  assert (Hs1 : match p_start s with Some x => start = if x <? 0 then x + L else x | None => start = 0 end)
    by (subst start start0; destruct (p_start s); reflexivity).
  assert (Hs2 : match p_stop s with Some x => stop = if x <? 0 then x + L else x | None => stop = L end).
  { subst stop stop0; destruct (p_stop s); [reflexivity|]. destruct (L <? 0) eqn:?; lia. }
  clearbody start stop. clear start0 stop0.
  assert (HA : 0 < step -> slice_start L s = start).
  { intros Hs. unfold slice_start, adj. rewrite Hstep. replace (0 <? step) with true by lia.
    destruct (p_start s) as [x|]; [destruct (x <? 0) eqn:?; lia|lia]. }
  assert (HB : 0 < step -> slice_stop L s = stop).
  { intros Hs. unfold slice_stop, adj. rewrite Hstep. replace (0 <? step) with true by lia.
    destruct (p_stop s) as [x|]; [destruct (x <? 0) eqn:?; lia|lia]. }
  assert (HA' : step < 0 -> slice_start L s = match p_start s with None => L - 1 | Some _ => Z.min (L - 1) start end).
  { intros Hs. unfold slice_start, adj. rewrite Hstep. replace (0 <? step) with false by lia.
    destruct (p_start s) as [x|]; [destruct (x <? 0) eqn:?; lia|lia]. }
  assert (HB' : step < 0 -> slice_stop L s = match p_stop s with None => -1 | Some _ => Z.min (L - 1) stop end).
  { intros Hs. unfold slice_stop, adj. rewrite Hstep. replace (0 <? step) with false by lia.
    destruct (p_stop s) as [x|]; [destruct (x <? 0) eqn:?; lia|lia]. }
  assert (Hst0 : p_start s <> None -> step < 0 -> r = false -> start <= L - 1).
  { intros Hn Hs Hr. destruct (Z.eq_dec start L) as [He|He]; [|lia].
    exfalso. apply Hbad. split; [exact Hr|]. split; [exact Hs|].
    destruct (p_start s) as [x|]; [|congruence].
    destruct (x <? 0) eqn:?; [lia|]. f_equal. lia. }
  destruct r.
  - destruct (step <? 0) eqn:E3.
    + (* reversed array, negative step *)
      destruct (p_start s) as [x|] eqn:Es; destruct (p_stop s) as [y|] eqn:Ep;
        match type of H with
        | (if ?c then _ else _) = _ => destruct c eqn:E4; [discriminate|]
        end;
        try (match type of H with
        | (if ?c then _ else _) = _ => destruct c eqn:E5; [discriminate|]
        end);
        (match type of H with
        | (if ?c then _ else _) = _ => destruct c eqn:E6; [discriminate|]
        end); injection H as <- <-;
        eexists; eexists; (split; [apply sel_norm; cbn; lia|]);
        (split; [apply Hsel; lia|]); (split; [cbn; lia|]); (split; [left; reflexivity|]);
        cbn [apply_dir]; unfold flip_ix; rewrite map_flip_prange by lia;
        rewrite HA', HB' by lia; f_equal; lia.
    + destruct (step =? 0) eqn:E3'; [discriminate|].
      destruct (negb _) eqn:E4 in H; [discriminate|].
      destruct (negb _) eqn:E5 in H; [discriminate|].
      destruct (negb _) eqn:E6 in H; [discriminate|]. injection H as <- <-.
      pose proof (Z.mod_pos_bound (L - start - 1 - (L - stop)) step ltac:(lia)) as Hm.
      eexists; eexists. split; [apply sel_norm; cbn; lia|].
      split; [apply Hsel; lia|]. split; [cbn; lia|]. split; [right; reflexivity|].
      cbn [apply_dir]. unfold flip_ix. rewrite map_flip_prange by lia.
      rewrite HA, HB by lia.
      replace (Z.min L (L - start)) with (L - start) by lia.
      destruct (Z_lt_dec start stop) as [Hlt|Hge].
      * rewrite rev_aligned by lia. f_equal; lia.
      * (* empty selection accepted only when start = stop = L *)
        rewrite !prange_nil by lia. reflexivity.
  - destruct (step <? 0) eqn:E3.
    + assert (Hflip : forall l, map (flip_ix false L) l = l) by (intros; apply map_id).
      destruct (p_start s) as [x|] eqn:Es; destruct (p_stop s) as [y|] eqn:Ep;
      (match type of H with (if ?c then _ else _) = _ => destruct c eqn:E4; [discriminate|] end);
      (match type of H with (if ?c then _ else _) = _ => destruct c eqn:E5; [discriminate|] end);
      (match type of H with (if ?c then _ else _) = _ => destruct c eqn:E6; [discriminate|] end);
      injection H as <- <-;
      eexists; eexists; (split; [apply sel_norm; cbn; lia|]);
      (split; [apply Hsel; lia|]); (split; [cbn; lia|]); (split; [right; reflexivity|]);
      cbn [apply_dir]; rewrite Hflip; rewrite HA', HB' by lia.
      * specialize (Hst0 ltac:(discriminate) ltac:(lia) eq_refl).
        replace (Z.min L (start + 1)) with (start + 1) by lia.
        destruct (Z_lt_dec stop start) as [Hlt|Hge].
        -- rewrite rev_aligned by lia. f_equal; lia.
        -- pose proof (Z.mod_pos_bound (start + 1 - 1 - (stop + 1)) (-step) ltac:(lia)). lia.
      * specialize (Hst0 ltac:(discriminate) ltac:(lia) eq_refl).
        replace (Z.min L (start + 1)) with (start + 1) by lia.
        pose proof (rev_aligned 0 (start + 1) (- step) ltac:(lia) ltac:(lia)) as Hra.
        rewrite Z.add_0_l in Hra. rewrite Hra. f_equal; lia.
      * replace (Z.min L (L - 1 + 1)) with L by lia.
        destruct (Z_lt_dec (stop + 1) L) as [Hlt|Hge].
        -- pose proof (rev_aligned (stop + 1) L (- step) ltac:(lia) ltac:(lia)) as Hra.
           replace (L - 1 + 1) with L by lia. rewrite Hra. f_equal; lia.
        -- pose proof (Z.mod_pos_bound (L - 1 + 1 - 1 - (stop + 1)) (-step) ltac:(lia)). lia.
      * replace (Z.min L (L - 1 + 1)) with L by lia.
        replace (L - 1 + 1) with L by lia.
        destruct (Z.eq_dec L 0) as [->|HL0].
        -- pose proof (Z.mod_pos_bound (0 - 1 - 0) (-step) ltac:(lia)).
           rewrite !prange_nil by lia. reflexivity.
        -- pose proof (rev_aligned 0 L (- step) ltac:(lia) ltac:(lia)) as Hra.
           rewrite Z.add_0_l in Hra. rewrite Hra. f_equal; lia.
    + destruct (negb _) eqn:E4 in H; [discriminate|].
      destruct (negb _) eqn:E5 in H; [discriminate|].
      destruct (negb _) eqn:E6 in H; [discriminate|]. injection H as <- <-.
      eexists; eexists. split; [apply sel_norm; cbn; lia|].
      split; [apply Hsel; lia|]. split; [cbn; lia|]. split; [left; reflexivity|].
      cbn [apply_dir]. unfold flip_ix. rewrite map_id. rewrite HA, HB by lia. f_equal; lia.
Qed.

(** ** The function does return for every non-empty in-range request *)
Definition bound_ok (L : Z) (o : option Z) : Prop :=
  match o with None => True | Some x => - L <= x <= L end.

Lemma prange_nonempty a b st : st <> 0 -> prange a b st <> [] -> (0 < st -> a < b) /\ (st < 0 -> b < a).
Proof.
  intros Hst Hne. split; intros Hs.
  - destruct (Z_lt_dec a b); [assumption|]. exfalso. apply Hne. apply prange_nil; lia.
  - destruct (Z_lt_dec b a); [assumption|]. exfalso. apply Hne. apply prange_nil; lia.
Qed.

Lemma fwd_slice_returns L s r si :
  0 <= L -> bound_ok L (p_start s) -> bound_ok L (p_stop s) ->
  ~ (step_of s < 0 /\ p_start s = Some L) ->
  sel L s = Some si -> si <> [] -> exists f d, fwd_slice L s r = Ok (f, d).
Proof.
  intros HL Hb1 Hb2 Hbad Hsel Hne. unfold sel in Hsel.
  destruct (step_of s =? 0) eqn:E0; [discriminate|]. injection Hsel as <-.
  apply prange_nonempty in Hne; [|lia]. destruct Hne as [Hp Hn].
  unfold fwd_slice, slice_start, slice_stop, adj, step_of, odef, bound_ok in *.
  destruct s as [s1 s2 s3]. cbn [p_start p_stop p_step] in *.
  set (step := match s3 with Some x => x | None => 1 end) in *. clearbody step. cbv zeta.
  assert (Hx : forall x, s1 = Some x -> step < 0 -> x <> L) by (intros x -> Hs ->; apply Hbad; now split).
  destruct r; destruct s1 as [x|]; destruct s2 as [y|];
    try specialize (Hx _ eq_refl);
    repeat match goal with
    | |- context [if ?c then _ else _] =>
        match c with
        | context [if _ then _ else _] => fail 1
        | _ => let E := fresh "E" in destruct c eqn:E
        end
    | |- exists f d, Ok (?u, ?v) = Ok (f, d) => exists u, v; reflexivity
    end; exfalso;
    repeat match goal with
    | H : context [if ?c then _ else _] |- _ =>
        match c with
        | context [if _ then _ else _] => fail 1
        | _ => let E := fresh "E" in destruct c eqn:E
        end
    end;
    repeat match goal with
    | H : context [?u mod ?v] |- _ =>
        lazymatch goal with
        | _ : 0 <= u mod v < v |- _ => fail
        | _ => pose proof (Z.mod_pos_bound u v ltac:(lia))
        end
    end; try lia.
  all: match goal with
    | H : context [?u mod ?v] |- _ => pose proof (Z.mod_le u v ltac:(lia) ltac:(lia)); lia
    end.
Qed.
