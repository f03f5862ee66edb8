(** C96: what is drawn for lines. *)
From Coq Require Import List ZArith QArith Qround Bool Arith Lia Lqa ZifyBool ZifyNat.
From Verif Require Import PrepModel.
From Verif Require LinesModel LinesSpec LinesProofs LinesProps ResampleModel ResampleProps.
Import ListNotations.
Local Open Scope nat_scope.

(** ** Specification *)
(** coordinate [j] of the points of a line *)
Definition coord (j : nat) (l : list (list Q)) : list Q := map (fun p => nth j p 0%Q) l.
(** the pieces of a line, each from one point to the next *)
Definition pieces {A} (l : list A) : list (A * A) := combine l (tl l).
(** all points of [new] lie on the line [l], at equal steps along its points, ceil(subsample (n - 1)) of them, from the first point to the last *)
Definition finer (subsample : Q) (l new : list Q) : Prop :=
  (length l = 1 -> new = l) /\
  (2 <= length l ->
   let steps := Qceiling (subsample * inject_Z (Z.of_nat (length l) - 1)) in
   Z.of_nat (length new) = (steps + 1)%Z /\ (1 <= steps)%Z /\
   (forall k, k < length new ->
      ResampleProps.on_line l (inject_Z (Z.of_nat k) * inject_Z (Z.of_nat (length l) - 1) / inject_Z steps)%Q (nth k new 0%Q)) /\
   (nth 0 new 0 == nth 0 l 0)%Q /\ (nth (length new - 1) new 0 == nth (length l - 1) l 0)%Q).
(** what is drawn is the lines [new], with the numbers [nums] at their points: every piece of every line once, in order, with the number of the point it begins at, and no piece between two lines *)
Definition shows (o : drawn) (d : nat) (new : list (list (list Q))) (nums : option (list (list Q))) : Prop :=
  verts o = map (fun j => map Some (coord j (concat new))) (seq 0 d) /\
  segments o = map (fun ab => (map Some (fst ab), map Some (snd ab))) (concat (map pieces new)) /\
  vert_scalars o = option_map (fun ns => map Some (concat ns)) nums /\
  seg_scalars o = option_map (fun ns => map Some (concat (map (@removelast Q) ns))) nums.
(** numbers for all the points of the lines, or none *)
Definition numbers_for (lines : list (list (list Q))) (rows : nat) (sc : LinesModel.scalars_in) (nums : option (list (list Q))) : Prop :=
  match nums with
  | None => sc = LinesModel.SNone /\ rows <= 3
  | Some ns => map (@length Q) ns = map (@length (list Q)) lines /\ LinesProps.given_as (concat ns) sc
  end.

(** ** Lemmas *)
Definition conn (f : nat) (ns : list nat) := LinesModel.connect (LinesModel.offsets f ns) ns.
Lemma conn_cons f n ns : conn f (n :: ns) = combine (seq f (n - 1)) (seq (f + 1) (n - 1)) ++ conn (f + n) ns.
Proof. reflexivity. Qed.
Lemma map_snd_combine {A B} (l : list A) : forall l' : list B, length l = length l' -> map snd (combine l l') = l'.
Proof. induction l as [|a l IH]; intros [|b l'] E; cbn in *; try reflexivity; try discriminate. f_equal. apply IH. lia. Qed.
Lemma conn_snd_ge ns : forall f k, In k (map snd (conn f ns)) -> f + 1 <= k.
Proof.
  induction ns as [|n ns IH]; intros f k; [intros []|]. rewrite conn_cons, map_app, in_app_iff, map_snd_combine by (rewrite !seq_length; reflexivity).
  intros [H|H]; [apply in_seq in H; lia|]. apply IH in H. lia.
Qed.
Lemma mem_iff k l : existsb (Nat.eqb k) l = true <-> In k l.
Proof. rewrite existsb_exists. split; [intros (x & H & E); apply Nat.eqb_eq in E; subst; exact H|intros H; exists k; split; [exact H|apply Nat.eqb_refl]]. Qed.
Lemma filter_none {A} (f : A -> bool) l : (forall x, In x l -> f x = false) -> filter f l = [].
Proof. induction l as [|a l IH]; intros H; cbn; [reflexivity|]. rewrite (H a (or_introl eq_refl)). apply IH. intros x Hx. apply H. right. exact Hx. Qed.
Lemma starts_from ns : forall f, Forall (fun n => 1 <= n) ns ->
  filter (fun k => negb (existsb (Nat.eqb k) (map snd (conn f ns)))) (seq f (list_sum ns)) = LinesModel.offsets f ns.
Proof.
  induction ns as [|n ns IH]; intros f P; [reflexivity|]. inversion P as [|x l Pn Pr E1]; subst x l.
  cbn [list_sum fold_right LinesModel.offsets]. change (fold_right Nat.add 0 ns) with (list_sum ns). rewrite seq_app, filter_app, conn_cons, map_app, map_snd_combine by (rewrite !seq_length; reflexivity).
  change (f :: LinesModel.offsets (f + n) ns) with ([f] ++ LinesModel.offsets (f + n) ns). f_equal.
  - destruct n as [|n]; [lia|]. cbn [seq filter]. rewrite Nat.sub_succ, Nat.sub_0_r.
    assert (E : existsb (Nat.eqb f) (seq (f + 1) n ++ map snd (conn (f + S n) ns)) = false).
    { apply not_true_iff_false. rewrite mem_iff, in_app_iff. intros [H|H]; [apply in_seq in H; lia|apply conn_snd_ge in H; lia]. }
    rewrite E. cbn [negb]. f_equal. apply filter_none. intros x Hx. apply negb_false_iff, mem_iff, in_app_iff. left. replace (f + 1) with (S f) by lia. exact Hx.
  - rewrite <- (IH (f + n) Pr). apply filter_ext_in. intros k Hk. apply in_seq in Hk. f_equal. rewrite existsb_app.
    replace (existsb (Nat.eqb k) (seq (f + 1) (n - 1))) with false; [reflexivity|]. symmetry. apply not_true_iff_false. rewrite mem_iff, in_seq. lia.
Qed.
Fixpoint ranges (f : nat) (ns : list nat) : list (nat * nat) := match ns with [] => [] | n :: ns' => (f, f + n) :: ranges (f + n) ns' end.
Lemma lines_ranges ns : forall f, ns <> [] -> combine (LinesModel.offsets f ns) (tl (LinesModel.offsets f ns) ++ [f + list_sum ns]) = ranges f ns.
Proof.
  induction ns as [|n ns IH]; intros f N; [contradiction|]. destruct ns as [|m ns].
  - cbn. f_equal. f_equal. lia.
  - specialize (IH (f + n) ltac:(discriminate)). cbn [LinesModel.offsets tl ranges] in *. cbn [list_sum fold_right] in *. cbn [app combine] in *. f_equal.
    rewrite <- IH. replace (f + (n + (m + fold_right Init.Nat.add 0 ns))) with (f + n + (m + fold_right Init.Nat.add 0 ns)) by lia. reflexivity.
Qed.
Lemma slices {A} (ps : list (list A)) : forall pre row, row = pre ++ concat ps ->
  map (slice row) (ranges (length pre) (map (@length A) ps)) = ps.
Proof.
  induction ps as [|p ps IH]; intros pre row E; [reflexivity|]. cbn [map ranges]. f_equal.
  - unfold slice. cbn [fst snd]. rewrite E, skipn_app, skipn_all, Nat.sub_diag. cbn [skipn app concat]. replace (length pre + length p - length pre) with (length p) by lia. rewrite firstn_app, firstn_all, Nat.sub_diag. cbn [firstn]. apply app_nil_r.
  - rewrite <- (app_length pre p). apply IH. rewrite E. cbn [concat]. rewrite app_assoc. reflexivity.
Qed.
Lemma ranges_len ns : forall f, map (fun ss => snd ss - fst ss) (ranges f ns) = ns.
Proof. induction ns as [|n ns IH]; intros f; cbn [ranges map fst snd]; [reflexivity|]. rewrite IH. f_equal. lia. Qed.
Lemma ranges_count ns : forall f, length (ranges f ns) = length ns.
Proof. induction ns as [|n ns IH]; intros f; cbn; [reflexivity|]. rewrite IH. reflexivity. Qed.
Lemma conn_count ns : forall f, Forall (fun n => 1 <= n) ns -> length (conn f ns) + length ns = list_sum ns.
Proof.
  induction ns as [|n ns IH]; intros f P; [reflexivity|]. inversion P as [|x l Pn Pr E1]; subst x l. rewrite conn_cons, app_length, combine_length, !seq_length, Nat.min_id. specialize (IH (f + n) Pr). cbn [list_sum fold_right length] in *. change (fold_right Nat.add 0 ns) with (list_sum ns). lia.
Qed.
Lemma offsets_count ns : forall f, length (LinesModel.offsets f ns) = length ns.
Proof. induction ns as [|n ns IH]; intros f; cbn; [reflexivity|]. rewrite IH. reflexivity. Qed.
(** the new connections are those of the new lines *)
Lemma fine_conns_from sub ns : forall pre,
  flat_map (fine_conns sub (pre ++ ns)) (seq (length pre) (length ns)) = conn (list_sum (map (n_fine sub) pre)) (map (n_fine sub) ns).
Proof.
  induction ns as [|n ns IH]; intros pre; [reflexivity|]. cbn [length seq flat_map map]. rewrite conn_cons. f_equal.
  - unfold fine_conns. rewrite app_nth2, Nat.sub_diag by lia. cbn [nth]. rewrite firstn_app, firstn_all, Nat.sub_diag. cbn [firstn]. rewrite app_nil_r. set (s := list_sum _). f_equal; f_equal; lia.
  - specialize (IH (pre ++ [n])). rewrite <- app_assoc in IH. cbn [app] in IH. rewrite app_length in IH. cbn [length] in IH. replace (S (length pre)) with (length pre + 1) by lia. rewrite IH. f_equal. rewrite map_app, list_sum_app. cbn. lia.
Qed.
Lemma fine_conns_all sub ns : flat_map (fine_conns sub ns) (seq 0 (length ns)) = conn 0 (map (n_fine sub) ns).
Proof. exact (fine_conns_from sub ns []). Qed.
(** segments of numbered points are the pieces of the lines *)
Lemma seq_map_nth {A} (dflt : A) (l : list A) : forall pre post, map (fun k => nth k (pre ++ l ++ post) dflt) (seq (length pre) (length l)) = l.
Proof.
  induction l as [|a l IH]; intros pre post; [reflexivity|]. cbn [length seq map app]. f_equal.
  - rewrite app_nth2, Nat.sub_diag by lia. reflexivity.
  - specialize (IH (pre ++ [a]) post). rewrite <- app_assoc in IH. cbn [app] in IH. rewrite app_length in IH. cbn [length] in IH. rewrite <- IH at 2. replace (length pre + 1) with (S (length pre)) by lia. reflexivity.
Qed.
Lemma map_combine2 {A B C E} (f : A -> C) (g : B -> E) (l : list A) : forall l' : list B, map (fun ab => (f (fst ab), g (snd ab))) (combine l l') = combine (map f l) (map g l').
Proof. induction l as [|a l IH]; intros [|b l']; cbn; try reflexivity. f_equal. apply IH. Qed.
Lemma combine_removelast {A} (l : list A) : combine (removelast l) (tl l) = combine l (tl l).
Proof. induction l as [|a [|b l] IH]; try reflexivity. cbn [tl] in *. change (removelast (a :: b :: l)) with (a :: removelast (b :: l)). cbn [combine]. f_equal. destruct l as [|c l]; [reflexivity|]. exact IH. Qed.
Lemma seq_map_nth_init {A} (dflt : A) (l pre post : list A) : map (fun k => nth k (pre ++ l ++ post) dflt) (seq (length pre) (length l - 1)) = removelast l.
Proof.
  destruct l as [|a l] using rev_ind; [reflexivity|]. rewrite app_length. cbn [length]. replace (length l + 1 - 1) with (length l) by lia. rewrite removelast_last, <- app_assoc. apply seq_map_nth.
Qed.
Lemma seq_map_nth_tail {A} (dflt : A) (l pre post : list A) : map (fun k => nth k (pre ++ l ++ post) dflt) (seq (length pre + 1) (length l - 1)) = tl l.
Proof.
  destruct l as [|a l]; [reflexivity|]. cbn [length tl]. replace (S (length l) - 1) with (length l) by lia. pose proof (seq_map_nth dflt l (pre ++ [a]) post) as H. rewrite <- app_assoc, app_length in H. exact H.
Qed.
Lemma conn_pieces {A} (dflt : A) (ls : list (list A)) : forall pre,
  map (fun ab => (nth (fst ab) (pre ++ concat ls) dflt, nth (snd ab) (pre ++ concat ls) dflt)) (conn (length pre) (map (@length A) ls)) = concat (map pieces ls).
Proof.
  induction ls as [|l ls IH]; intros pre; [reflexivity|]. cbn [map concat]. rewrite conn_cons, map_app. f_equal.
  - rewrite (map_combine2 (fun k => nth k (pre ++ l ++ concat ls) dflt) (fun k => nth k (pre ++ l ++ concat ls) dflt)), seq_map_nth_init, seq_map_nth_tail. apply combine_removelast.
  - rewrite app_assoc, <- app_length. apply IH.
Qed.
Lemma conn_firsts {A} (dflt : A) (ls : list (list A)) : forall pre,
  map (fun ab => nth (fst ab) (pre ++ concat ls) dflt) (conn (length pre) (map (@length A) ls)) = concat (map (@removelast A) ls).
Proof.
  induction ls as [|l ls IH]; intros pre; [reflexivity|]. cbn [map concat]. rewrite conn_cons, map_app. f_equal.
  - rewrite <- seq_map_nth_init with (dflt := dflt) (pre := pre) (post := concat ls). rewrite <- (map_map fst (fun k => nth k (pre ++ l ++ concat ls) dflt)). f_equal.
    generalize (seq_length (length l - 1) (length pre)) (seq_length (length l - 1) (length pre + 1)). generalize (seq (length pre + 1) (length l - 1)) (seq (length pre) (length l - 1)). intros b a Ha Hb. rewrite <- Hb in Ha. clear Hb. revert b Ha. induction a as [|x a IHa]; intros [|y b] E; cbn in *; try reflexivity; try discriminate. f_equal. apply IHa. lia.
  - rewrite app_assoc, <- app_length. apply IH.
Qed.
Lemma conn_lt ns : forall f a b, In (a, b) (conn f ns) -> a < f + list_sum ns /\ b < f + list_sum ns.
Proof.
  induction ns as [|n ns IH]; intros f a b; [intros []|]. rewrite conn_cons, in_app_iff. cbn [list_sum fold_right]. change (fold_right Nat.add 0 ns) with (list_sum ns).
  intros [H|H]; [|apply IH in H; lia]. pose proof (in_combine_l _ _ _ _ H) as H1. pose proof (in_combine_r _ _ _ _ H) as H2. apply in_seq in H1, H2. lia.
Qed.
Lemma nth_seq_id {A} (dflt : A) (l : list A) : map (fun j => nth j l dflt) (seq 0 (length l)) = l.
Proof. pose proof (seq_map_nth dflt l [] []) as H. cbn [app length] in H. rewrite app_nil_r in H. exact H. Qed.
Lemma finish_shows d (new : list (list (list Q))) nums : Forall (Forall (fun p => length p = d)) new ->
  match nums with Some ns => map (@length Q) ns = map (@length (list Q)) new | None => True end ->
  shows (finish (map (fun j => map Some (coord j (concat new))) (seq 0 d)) (option_map (fun ns => map Some (concat ns)) nums) (conn 0 (map (@length (list Q)) new))) d new nums.
Proof.
  intros P Hn. unfold shows, finish. cbn [verts segments vert_scalars seg_scalars]. split; [reflexivity|]. split; [|split; [reflexivity|]].
  - rewrite <- (conn_pieces [] new []). cbn [app length]. rewrite map_map. apply map_ext_in. intros [a b] Hab. cbn [fst snd].
    apply conn_lt in Hab. cbn [plus] in Hab. rewrite <- LinesProofs.concat_length in Hab.
    assert (Q1 : forall k, k < length (concat new) -> map (fun row : list cell => nth k row None) (map (fun j => map Some (coord j (concat new))) (seq 0 d)) = map Some (nth k (concat new) [])).
    { intros k Hk. rewrite map_map. assert (Lp : length (nth k (concat new) []) = d). { pose proof (nth_In (concat new) [] Hk) as Hi. apply in_concat in Hi as (l & Hl & Hi). rewrite Forall_forall in P. specialize (P l Hl). rewrite Forall_forall in P. exact (P _ Hi). }
      rewrite <- (nth_seq_id 0%Q (nth k (concat new) [])) at 1. rewrite Lp, map_map. apply map_ext. intros j. unfold coord. rewrite map_map.
      rewrite (nth_indep _ None (Some (nth j ([] : list Q) 0%Q))) by (rewrite map_length; exact Hk). exact (map_nth (fun p => Some (nth j p 0%Q)) (concat new) [] k). }
    rewrite !Q1 by lia. reflexivity.
  - destruct nums as [ns|]; [|reflexivity]. cbn [option_map]. f_equal. rewrite <- Hn. rewrite <- (conn_firsts 0%Q ns []). cbn [app length]. rewrite map_map. apply map_ext_in. intros [a b] Hab. cbn [fst snd].
    apply conn_lt in Hab. cbn [plus] in Hab. rewrite <- LinesProofs.concat_length in Hab. rewrite (nth_indep _ None (Some 0%Q)) by (rewrite map_length; lia). apply (map_nth Some).
Qed.
Lemma flat_map_concat {A B C} (f : B -> list C) (g : A -> B) (l : list A) : flat_map (fun x => f (g x)) l = concat (map f (map g l)).
Proof. induction l as [|a l IH]; cbn; [reflexivity|]. rewrite IH. reflexivity. Qed.
Lemma n_fine_1 sub : n_fine sub 1 = 1.
Proof. unfold n_fine. assert (E : Qceiling (sub * inject_Z (Z.of_nat 1 - 1)) = 0%Z). { change 0%Z with (Qceiling 0%Q). apply Qceiling_comp. change (inject_Z (Z.of_nat 1 - 1)) with 0%Q. ring. } rewrite E. reflexivity. Qed.
Lemma n_fine_pos sub n : (0 < sub)%Q -> 1 <= n -> 1 <= n_fine sub n.
Proof.
  intros H Hn. unfold n_fine. assert (C : (0 <= Qceiling (sub * inject_Z (Z.of_nat n - 1)))%Z); [|lia]. apply ResampleProps.ceil_nonneg. apply Qmult_le_0_compat; [apply Qlt_le_weak; exact H|]. change 0%Q with (inject_Z 0). rewrite <- Zle_Qle. lia.
Qed.
Lemma fine_row_resample scipy sub j l : (scipy = false \/ 2 <= length l) -> fine_row scipy sub j l = map Some (ResampleModel.resample_row sub l).
Proof. intros H. unfold fine_row. replace (scipy && (length l =? 1)) with false; [reflexivity|]. destruct H as [->|H]; [reflexivity|]. destruct (Nat.eqb_spec (length l) 1); [lia|]. symmetry. apply andb_false_r. Qed.
Lemma resample_len sub l : length (ResampleModel.resample_row sub l) = n_fine sub (length l).
Proof. unfold ResampleModel.resample_row. rewrite map_length, ResampleProps.linspace_length. reflexivity. Qed.
Lemma resample_finer sub l : (0 < sub)%Q -> finer sub l (ResampleModel.resample_row sub l).
Proof.
  intros H. split.
  - intros E. destruct l as [|x [|? ?]]; cbn in E; try lia. unfold ResampleModel.resample_row. cbn [length]. change (ResampleModel.new_count sub 1) with (n_fine sub 1). rewrite n_fine_1. reflexivity.
  - intros L. destruct (ResampleProps.C84_on_the_line l sub L H) as (A & B & C & D1 & D2). split; [exact A|]. split; [exact B|]. split; [exact C|]. split; [exact D1|exact D2].
Qed.
Definition newline (sub : Q) (d : nat) (l : list (list Q)) : list (list Q) :=
  map (fun k => map (fun j => nth k (ResampleModel.resample_row sub (coord j l)) 0%Q) (seq 0 d)) (seq 0 (n_fine sub (length l))).
Lemma newline_coord sub d l j : j < d -> coord j (newline sub d l) = ResampleModel.resample_row sub (coord j l).
Proof.
  intros H. unfold coord at 1, newline. rewrite map_map. rewrite <- (nth_seq_id 0%Q (ResampleModel.resample_row sub (coord j l))). rewrite resample_len. unfold coord at 3. rewrite map_length. apply map_ext. intros k.
  rewrite (nth_indep _ 0%Q ((fun j => nth k (ResampleModel.resample_row sub (coord j l)) 0%Q) 0)) by (rewrite map_length, seq_length; exact H). rewrite (map_nth (fun j => nth k (ResampleModel.resample_row sub (coord j l)) 0%Q)), seq_nth by exact H. reflexivity.
Qed.
Lemma coord_concat j (ls : list (list (list Q))) : coord j (concat ls) = concat (map (coord j) ls).
Proof. unfold coord. rewrite concat_map. reflexivity. Qed.

Section Prep.
Variables (scipy : bool) (sub : Q) (d : nat) (ls : list (list (list Q))) (nums : option (list (list Q))).
Hypothesis Hne : ls <> [].
Hypothesis Hpos : Forall (fun l => 1 <= length l) ls.
Hypothesis Hd : Forall (Forall (fun p => length p = d)) ls.
Hypothesis Hnums : match nums with Some ns => map (@length Q) ns = map (@length (list Q)) ls | None => True end.
Let npts := map (@length (list Q)) ls.
Lemma npts_pos : Forall (fun n => 1 <= n) npts.
Proof. apply Forall_map. exact Hpos. Qed.
Lemma prep_starts : starts (length (concat ls)) (conn 0 npts) = LinesModel.offsets 0 npts.
Proof. unfold starts. rewrite LinesProofs.concat_length. apply starts_from. exact npts_pos. Qed.
Lemma prep_lines_ranges : combine (LinesModel.offsets 0 npts) (stops (length (concat ls)) (LinesModel.offsets 0 npts)) = ranges 0 npts.
Proof. unfold stops. rewrite LinesProofs.concat_length. apply (lines_ranges npts 0). unfold npts. destruct ls; [contradiction|discriminate]. Qed.
Lemma prep_assert : (length (concat ls) =? length (LinesModel.offsets 0 npts) + length (conn 0 npts)) = true.
Proof. apply Nat.eqb_eq. rewrite offsets_count, LinesProofs.concat_length. pose proof (conn_count npts 0 npts_pos). unfold npts in *. lia. Qed.
Lemma prep_coarse : (sub <= 0)%Q -> exists o, prep scipy sub d (concat ls) (option_map (@concat Q) nums) (conn 0 npts) = Some o /\ shows o d ls nums.
Proof.
  intros H. unfold prep. rewrite prep_starts, prep_assert. cbn [negb]. replace (Qle_bool sub 0) with true by (symmetry; apply Qle_bool_iff; exact H).
  eexists. split; [reflexivity|]. pose proof (finish_shows d ls nums Hd Hnums) as F. rewrite map_map. destruct nums; exact F.
Qed.
Lemma fine_rows j (rs : list (list Q)) : (scipy = false \/ Forall (fun l => 2 <= length l) ls) -> map (@length Q) rs = npts ->
  flat_map (fun ss => fine_row scipy sub j (slice (concat rs) ss)) (ranges 0 npts) = map Some (concat (map (ResampleModel.resample_row sub) rs)).
Proof.
  intros H E. rewrite (flat_map_concat (fine_row scipy sub j) (slice (concat rs))). rewrite <- E. pose proof (slices rs [] (concat rs) eq_refl) as S1. cbn [length] in S1. rewrite S1. rewrite concat_map, map_map. f_equal. apply map_ext_in. intros l Hl. apply fine_row_resample.
  destruct H as [H|H]; [left; exact H|right]. assert (F : Forall (fun n => 2 <= n) (map (@length Q) rs)) by (rewrite E; apply Forall_map; exact H). rewrite Forall_map, Forall_forall in F. apply F. exact Hl.
Qed.
Lemma prep_some : (0 < sub)%Q -> prep scipy sub d (concat ls) (option_map (@concat Q) nums) (conn 0 npts) =
  Some (finish (map (fun j => flat_map (fun ss => fine_row scipy sub j (slice (coord j (concat ls)) ss)) (ranges 0 npts)) (seq 0 d))
               (option_map (fun ns => flat_map (fun ss => fine_row scipy sub 0 (slice (concat ns) ss)) (ranges 0 npts)) nums)
               (conn 0 (map (n_fine sub) npts))).
Proof.
  intros H. unfold prep. rewrite prep_starts, prep_assert. cbn [negb]. replace (Qle_bool sub 0) with false by (symmetry; apply not_true_iff_false; rewrite Qle_bool_iff; apply Qlt_not_le; exact H).
  rewrite prep_lines_ranges, ranges_len, ranges_count, fine_conns_all.
  assert (A : (length (conn 0 (map (n_fine sub) npts)) =? list_sum (map (n_fine sub) npts) - length (LinesModel.offsets 0 npts)) = true).
  { apply Nat.eqb_eq. rewrite offsets_count. assert (F : Forall (fun n => 1 <= n) (map (n_fine sub) npts)) by (apply Forall_map; eapply Forall_impl; [|exact npts_pos]; intros n Hn; apply n_fine_pos; assumption). pose proof (conn_count _ 0 F) as C. rewrite map_length in C. lia. }
  rewrite A. cbn [negb]. f_equal. f_equal.
  - apply map_ext_in. intros j Hj. apply in_seq in Hj. rewrite (nth_indep _ [] (coord 0 (concat ls))) by (rewrite map_length, seq_length; lia). change (map (fun j0 : nat => map (fun p : list Q => nth j0 p 0%Q) (concat ls)) (seq 0 d)) with (map (fun j0 => coord j0 (concat ls)) (seq 0 d)). rewrite (map_nth (fun j0 => coord j0 (concat ls))), seq_nth by lia. reflexivity.
  - destruct nums; reflexivity.
Qed.
Lemma prep_fine : (0 < sub)%Q -> (scipy = false \/ Forall (fun l => 2 <= length l) ls) ->
  exists o, prep scipy sub d (concat ls) (option_map (@concat Q) nums) (conn 0 npts) = Some o /\
    shows o d (map (newline sub d) ls) (option_map (map (ResampleModel.resample_row sub)) nums).
Proof.
  intros H S. rewrite (prep_some H). eexists. split; [reflexivity|].
  assert (N' : map (n_fine sub) npts = map (@length (list Q)) (map (newline sub d) ls)). { unfold npts. rewrite !map_map. apply map_ext. intros l. unfold newline. rewrite map_length, seq_length. reflexivity. }
  rewrite N'. assert (E1 : map (fun j => flat_map (fun ss => fine_row scipy sub j (slice (coord j (concat ls)) ss)) (ranges 0 npts)) (seq 0 d) = map (fun j => map Some (coord j (concat (map (newline sub d) ls)))) (seq 0 d)).
  { apply map_ext_in. intros j Hj. apply in_seq in Hj. rewrite !coord_concat. rewrite (fine_rows j (map (coord j) ls) S) by (unfold npts; rewrite map_map; apply map_ext; intros l; unfold coord; apply map_length). f_equal. f_equal. rewrite !map_map. apply map_ext. intros l. symmetry. apply newline_coord. lia. }
  rewrite E1. assert (E2 : option_map (fun ns => flat_map (fun ss => fine_row scipy sub 0 (slice (concat ns) ss)) (ranges 0 npts)) nums = option_map (fun ns => map Some (concat ns)) (option_map (map (ResampleModel.resample_row sub)) nums)).
  { destruct nums as [ns|]; [|reflexivity]. cbn [option_map]. f_equal. apply (fine_rows 0 ns S). exact Hnums. }
  rewrite E2. apply finish_shows.
  - apply Forall_map. apply Forall_forall. intros l _. unfold newline. apply Forall_map. apply Forall_forall. intros k _. rewrite map_length. apply seq_length.
  - destruct nums as [ns|]; [|exact I]. cbn [option_map]. rewrite <- N'. rewrite map_map. unfold npts. rewrite <- Hnums, map_map. apply map_ext. intros l. apply resample_len.
Qed.
End Prep.

Definition firsts3 (lines : list (list (list Q))) := map (map (firstn 3)) lines.
Lemma lengths3 lines : map (@length (list Q)) (firsts3 lines) = map (@length (list Q)) lines.
Proof. unfold firsts3. rewrite map_map. apply map_ext. intros l. apply map_length. Qed.
Lemma prepared_parts lines rows sc oth r : LinesModel.prepare_lines lines rows sc true oth = LinesModel.Ok r ->
  LinesModel.vertices r = concat (firsts3 lines) /\ LinesModel.connections r = Some (conn 0 (map (@length (list Q)) (firsts3 lines))).
Proof.
  unfold LinesModel.prepare_lines. destruct lines as [|l0 ls0]; [discriminate|]. remember (l0 :: ls0) as lines eqn:El. destruct (negb _); [discriminate|]. destruct (LinesModel.as_matrix sc) as [g|]; [|discriminate]. destruct (LinesModel.prepare_scalars _ _ _); [|discriminate]. intros [= <-]. cbn [LinesModel.vertices LinesModel.connections].
  rewrite lengths3. split; [unfold firsts3; apply concat_map|reflexivity].
Qed.
Lemma prep_lines_prep scipy sub lines rows sc nums : LinesProps.joinable lines rows -> Forall (fun l => l <> []) lines -> numbers_for lines rows sc nums ->
  prep_lines scipy sub lines rows sc = prep scipy sub (Nat.min 3 rows) (concat (firsts3 lines)) (option_map (@concat Q) nums) (conn 0 (map (@length (list Q)) (firsts3 lines))).
Proof.
  intros J Ne Hn. unfold prep_lines. destruct nums as [ns|]; cbn [numbers_for] in Hn.
  - destruct Hn as (L & G). assert (Lc : length (concat ns) = length (concat lines)) by (rewrite !LinesProofs.concat_length, L; reflexivity).
    assert (N0 : concat ns <> []). { destruct J as [J _]. destruct lines as [|[|p l] ls]; [contradiction|inversion Ne; contradiction|]. intros C. rewrite C in Lc. cbn in Lc. lia. }
    destruct (LinesProps.C31_scalar_per_point lines rows sc true [] (concat ns) J Lc G N0 (or_intror Ne)) as (r & E & Es). rewrite E. destruct (prepared_parts _ _ _ _ _ E) as (-> & ->). rewrite Es. reflexivity.
  - destruct Hn as (-> & R). destruct (LinesModel.prepare_lines lines rows LinesModel.SNone true []) as [r|e] eqn:E.
    + destruct (prepared_parts _ _ _ _ _ E) as (-> & ->). revert E. unfold LinesModel.prepare_lines. destruct lines as [|l0 ls0]; [discriminate|]. rewrite (LinesProps.joinable_true _ _ J). cbn [LinesModel.as_matrix]. replace (3 <? rows) with false by (symmetry; apply Nat.ltb_ge; lia). cbn [LinesModel.prepare_scalars]. intros [= <-]. reflexivity.
    + exfalso. revert E. unfold LinesModel.prepare_lines. destruct lines as [|l0 ls0]; [destruct J; contradiction|]. rewrite (LinesProps.joinable_true _ _ J). cbn [LinesModel.as_matrix]. replace (3 <? rows) with false by (symmetry; apply Nat.ltb_ge; lia). cbn [LinesModel.prepare_scalars]. discriminate.
Qed.
Lemma firsts3_pos lines : Forall (fun l => l <> []) lines -> Forall (fun l => 1 <= length l) (firsts3 lines).
Proof. intros H. apply Forall_map. eapply Forall_impl; [|exact H]. intros l Hl. rewrite map_length. destruct l; [contradiction|cbn; lia]. Qed.
Lemma firsts3_dims lines rows : LinesProps.joinable lines rows -> Forall (Forall (fun p => length p = Nat.min 3 rows)) (firsts3 lines).
Proof. intros [_ H]. apply Forall_map. eapply Forall_impl; [|exact H]. intros l Hl. apply Forall_map. eapply Forall_impl; [|exact Hl]. intros p Hp. rewrite firstn_length, Hp. reflexivity. Qed.
Lemma firsts3_ne lines rows : LinesProps.joinable lines rows -> firsts3 lines <> [].
Proof. intros [H _]. destruct lines; [contradiction|discriminate]. Qed.
Lemma nth_firstn3 (p : list Q) : forall n j, j < n -> nth j (firstn n p) 0%Q = nth j p 0%Q.
Proof. induction p as [|x p IH]; intros [|n] [|j] H; cbn; try reflexivity; try lia. apply IH. lia. Qed.
Lemma coord3 j l : j < 3 -> coord j (map (firstn 3) l) = coord j l.
Proof. intros H. unfold coord. rewrite map_map. apply map_ext. intros p. apply nth_firstn3. exact H. Qed.
Lemma nums3 lines rows sc nums : numbers_for lines rows sc nums -> match nums with Some ns => map (@length Q) ns = map (@length (list Q)) (firsts3 lines) | None => True end.
Proof. destruct nums as [ns|]; cbn [numbers_for]; [|trivial]. intros [H _]. rewrite lengths3. exact H. Qed.

(** ** Theorems *)
(** The lines are drawn as they are (subsample 0), with the number of each point. *)
Theorem C96_drawn : forall scipy sub lines rows sc nums, (sub <= 0)%Q ->
  LinesProps.joinable lines rows -> Forall (fun l => l <> []) lines -> numbers_for lines rows sc nums ->
  exists o, prep_lines scipy sub lines rows sc = Some o /\ shows o (Nat.min 3 rows) (map (map (firstn 3)) lines) nums.
Proof.
  intros scipy sub lines rows sc nums Hs J Ne Hn. rewrite (prep_lines_prep scipy sub lines rows sc nums J Ne Hn).
  exact (prep_coarse scipy sub (Nat.min 3 rows) (firsts3 lines) nums (firsts3_pos _ Ne) (firsts3_dims _ _ J) (nums3 _ _ _ _ Hn) Hs).
Qed.
Print Assumptions C96_drawn.

(** With subsample above 0 finer lines are drawn in their place, each with all its points on its line, and their numbers are between those of the points in the same way. *)
Theorem C96_finer : forall scipy sub lines rows sc nums, (0 < sub)%Q ->
  LinesProps.joinable lines rows -> Forall (fun l => l <> []) lines -> numbers_for lines rows sc nums ->
  scipy = false \/ Forall (fun l => 2 <= length l) lines ->
  exists o new new_nums, prep_lines scipy sub lines rows sc = Some o /\ shows o (Nat.min 3 rows) new new_nums /\
    Forall2 (fun l l' => Forall (fun p => length p = Nat.min 3 rows) l' /\
                         forall j, j < Nat.min 3 rows -> finer sub (coord j l) (coord j l')) lines new /\
    match nums, new_nums with
    | Some ns, Some ns' => Forall2 (finer sub) ns ns' /\ map (@length Q) ns' = map (@length (list Q)) new
    | None, None => True
    | _, _ => False
    end.
Proof.
  intros scipy sub lines rows sc nums Hs J Ne Hn S. set (d := Nat.min 3 rows).
  assert (S3 : scipy = false \/ Forall (fun l => 2 <= length l) (firsts3 lines)). { destruct S as [S|S]; [left; exact S|right]. apply Forall_map. eapply Forall_impl; [|exact S]. intros l Hl. rewrite map_length. exact Hl. }
  destruct (prep_fine scipy sub d (firsts3 lines) nums (firsts3_ne _ _ J) (firsts3_pos _ Ne) (firsts3_dims _ _ J) (nums3 _ _ _ _ Hn) Hs S3) as (o & E & Sh).
  exists o, (map (newline sub d) (firsts3 lines)), (option_map (map (ResampleModel.resample_row sub)) nums). split; [|split; [exact Sh|split]].
  - rewrite (prep_lines_prep scipy sub lines rows sc nums J Ne Hn). exact E.
  - clear -Hs. unfold firsts3. rewrite map_map. induction lines as [|l lines IH]; cbn [map]; constructor; [|exact IH]. split.
    + unfold newline. apply Forall_map. apply Forall_forall. intros k _. rewrite map_length. apply seq_length.
    + intros j Hj. rewrite (newline_coord _ _ _ _ Hj), coord3 by (unfold d in Hj; lia). apply resample_finer. exact Hs.
  - pose proof (nums3 _ _ _ _ Hn) as N3. destruct nums as [ns|]; [|exact I]. cbn [option_map]. split.
    + clear -Hs. induction ns as [|n ns IH]; cbn [map]; constructor; [|exact IH]. apply resample_finer. exact Hs.
    + rewrite !map_map. transitivity (map (n_fine sub) (map (@length Q) ns)); [rewrite map_map; apply map_ext; intros l; apply resample_len|]. rewrite N3, map_map. apply map_ext. intros l. unfold newline. rewrite map_length, seq_length. reflexivity.
Qed.
Print Assumptions C96_finer.

(** With scipy a line of one point has no second coordinate: what is in memory goes to the limits of the plot. *)
Theorem C96_single_point_refuted : forall sub lines rows, (0 < sub)%Q -> 2 <= rows <= 3 ->
  LinesProps.joinable lines rows -> Forall (fun l => l <> []) lines -> Exists (fun l => length l = 1) lines ->
  exists o row, prep_lines true sub lines rows LinesModel.SNone = Some o /\ nth_error (verts o) 1 = Some row /\ In None row.
Proof.
  intros sub lines rows Hs R J Ne Ex. assert (Hn : numbers_for lines rows LinesModel.SNone None) by (split; [reflexivity|lia]).
  rewrite (prep_lines_prep true sub lines rows _ None J Ne Hn). rewrite (prep_some true sub (Nat.min 3 rows) (firsts3 lines) None (firsts3_ne _ _ J) (firsts3_pos _ Ne) (firsts3_dims _ _ J) I Hs).
  eexists. eexists. split; [reflexivity|]. unfold finish. cbn [verts]. split.
  - rewrite nth_error_map. rewrite LinesProofs.nth_error_seq' by lia. cbn [option_map plus]. reflexivity.
  - rewrite coord_concat. assert (E : map (@length (list Q)) (firsts3 lines) = map (@length Q) (map (coord 1) (firsts3 lines))) by (rewrite map_map; apply map_ext; intros l; unfold coord; symmetry; apply map_length).
    rewrite E. rewrite (flat_map_concat (fine_row true sub 1) (slice (concat (map (coord 1) (firsts3 lines))))). pose proof (slices (map (coord 1) (firsts3 lines)) [] _ eq_refl) as S1. cbn [length] in S1. cbn [app] in S1. rewrite S1.
    apply Exists_exists in Ex as (l & Hl & L1). apply in_concat. exists [None]. split; [|left; reflexivity]. apply in_map_iff. exists (coord 1 (map (firstn 3) l)). split.
    + unfold fine_row. replace (length (coord 1 (map (firstn 3) l))) with 1 by (unfold coord; rewrite !map_length; symmetry; exact L1). cbn [andb Nat.eqb]. rewrite n_fine_1. reflexivity.
    + apply in_map. unfold firsts3. apply in_map. exact Hl.
Qed.
Print Assumptions C96_single_point_refuted.

(** ** the hypotheses are met *)
Definition two_lines : list (list (list Q)) := [[[0;0]; [2;4]; [4;0]]; [[1;1]; [3;5]]]%Q.
Example two_lines_ok : LinesProps.joinable two_lines 2 /\ Forall (fun l => l <> []) two_lines /\ Forall (fun l => 2 <= length l) two_lines /\
  numbers_for two_lines 2 (LinesModel.SArr (LinesModel.M 1 5 [1;2;3;4;5]%Q)) (Some [[1;2;3];[4;5]]%Q).
Proof.
  split; [split; [discriminate|repeat constructor]|]. split; [repeat constructor; discriminate|]. split; [repeat constructor|]. split; [reflexivity|left; reflexivity].
Qed.
Example two_lines_drawn : exists o, prep_lines true 2 two_lines 2 LinesModel.SNone = Some o /\ length (segments o) = 6.
Proof. eexists. split; [vm_compute; reflexivity|reflexivity]. Qed.
Example one_point : exists o, prep_lines true 2 [[[0;0]; [2;4]]; [[1;1]]]%Q 2 LinesModel.SNone = Some o /\ nth 3 (nth 1 (verts o) []) (Some 0%Q) = None /\ length (segments o) = 2.
Proof. eexists. split; [vm_compute; reflexivity|split; reflexivity]. Qed.
