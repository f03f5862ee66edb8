(** C81: fields turned into a table and back are the same fields. *)
From Verif Require Import FrameModel.
From Coq Require Import List Bool Arith ZArith QArith Lia Lqa Field ZifyBool ZifyNat.
Import ListNotations.

(** ** specification *)
(** grids at different times, with one set of axes, whose fields have the same names and one value for each point *)
Definition prod_len {V} (cs : list (nat * list V)) : nat := fold_right Nat.mul 1%nat (map (fun p => length (snd p)) cs).
Definition series {V} (cs : list (nat * list V)) (names : list nat) (gs : list (grid V)) : Prop :=
  gs <> [] /\ NoDup (map g_time gs) /\ names <> [] /\
  NoDup (TIME :: map fst cs ++ names) /\
  (forall c, In c cs -> snd c <> [] /\ NoDup (snd c)) /\
  (forall g, In g gs -> g_crds g = cs /\ map fst (g_flds g) = names /\ forall p, In p (g_flds g) -> length (snd p) = prod_len cs).

Section P.
Context {V : Type}.
Variable veqb : V -> V -> bool.
Variable zero : V.
Hypothesis veqb_eq : forall a b, veqb a b = true <-> a = b.
Implicit Types (cols cs flds : list (nat * list V)) (gs : list (grid V)) (axs : list (list V)).

Lemma veqb_refl a : veqb a a = true. Proof. apply veqb_eq. reflexivity. Qed.

(** ** uniq *)
Definition keys (l : list (nat * V)) : list V := map snd (uniq veqb l).
Definition dd : list V -> list V := fix dd l := match l with [] => [] | x :: r => x :: filter (fun y => negb (veqb x y)) (dd r) end.
Lemma keys_dd l : keys l = dd (map snd l).
Proof.
  unfold keys. induction l as [|p l IH]; [reflexivity|]. cbn [uniq map dd]. f_equal. rewrite <- IH. generalize (uniq veqb l) as u. induction u as [|q u IHu]; [reflexivity|].
  cbn [filter map]. destruct (negb (veqb (snd p) (snd q))); cbn [map]; rewrite IHu; reflexivity.
Qed.
Lemma in_dd l x : In x (dd l) -> In x l.
Proof. induction l as [|y l IH]; cbn [dd In]; [tauto|]. intros [H|H]; [left; exact H|]. apply filter_In in H as (H & _). right. auto. Qed.
Lemma dd_NoDup l : NoDup l -> dd l = l.
Proof.
  intros ND. induction ND as [|x l Hn ND IH]; [reflexivity|]. cbn [dd]. rewrite IH. f_equal. clear IH ND. induction l as [|y l IH]; [reflexivity|]. cbn [filter In] in *.
  destruct (veqb x y) eqn:E; [apply veqb_eq in E; subst; tauto|]. cbn [negb]. f_equal. apply IH. tauto.
Qed.
Lemma dd_app l m : dd (l ++ m) = dd l ++ filter (fun y => negb (existsb (fun x => veqb x y) l)) (dd m).
Proof.
  induction l as [|x l IH]; [cbn [app]; change (dd []) with (@nil V); cbn [app]; induction (dd m) as [|y r IHr]; [reflexivity|]; change (y :: r = y :: filter (fun y => negb (existsb (fun x => veqb x y) [])) r); rewrite <- IHr; reflexivity|].
  cbn [app dd]. rewrite IH, filter_app. cbn [existsb]. clear IH. f_equal. f_equal.
  induction (dd m) as [|y r IHr]; [reflexivity|]. cbn [filter]. destruct (existsb (fun x0 => veqb x0 y) l), (veqb x y) eqn:E; cbn [negb orb filter]; rewrite ?E; cbn [negb]; rewrite ?IHr; reflexivity.
Qed.
Lemma dd_app_in l m : (forall x, In x m -> In x l) -> dd (l ++ m) = dd l.
Proof.
  intros H. rewrite dd_app. assert (E : filter (fun y => negb (existsb (fun x => veqb x y) l)) (dd m) = []).
  { assert (A : forall r, (forall y, In y r -> In y l) -> filter (fun y => negb (existsb (fun x => veqb x y) l)) r = []).
    { induction r as [|y r IH]; intros Hr; [reflexivity|]. cbn [filter]. replace (existsb (fun x => veqb x y) l) with true.
      - cbn [negb]. apply IH. intros z Hz. apply Hr. right. exact Hz.
      - symmetry. apply existsb_exists. exists y. split; [apply Hr; left; reflexivity|apply veqb_refl]. }
    apply A. intros y Hy. apply H. apply in_dd. exact Hy. }
  rewrite E, app_nil_r. reflexivity.
Qed.
Lemma dd_app_disj l m : (forall x, In x m -> ~ In x l) -> dd (l ++ m) = dd l ++ dd m.
Proof.
  intros H. rewrite dd_app. f_equal.
  assert (A : forall r, (forall y, In y r -> ~ In y l) -> filter (fun y => negb (existsb (fun x => veqb x y) l)) r = r).
  { induction r as [|y r IH]; intros Hr; [reflexivity|]. cbn [filter]. destruct (existsb (fun x => veqb x y) l) eqn:E.
    - apply existsb_exists in E as (x & Hx & E). apply veqb_eq in E. subst x. exfalso. apply (Hr y (or_introl eq_refl)). exact Hx.
    - cbn [negb]. f_equal. apply IH. intros z Hz. apply Hr. right. exact Hz. }
  apply A. intros y Hy. apply H. apply in_dd. exact Hy.
Qed.
Lemma dd_repeat x n : (0 < n)%nat -> dd (repeat x n) = [x].
Proof.
  intros H. destruct n as [|n]; [lia|]. cbn [repeat]. change (x :: repeat x n) with ([x] ++ repeat x n). rewrite dd_app_in; [reflexivity|]. intros y Hy. apply repeat_spec in Hy. left. auto.
Qed.
Lemma dd_blocks n : (0 < n)%nat -> forall ts, NoDup ts -> dd (concat (map (fun t => repeat t n) ts)) = ts.
Proof.
  intros Hn ts ND. induction ND as [|t ts Ht ND IH]; [reflexivity|]. cbn [map concat]. rewrite dd_app_disj.
  - rewrite dd_repeat by exact Hn. rewrite IH. reflexivity.
  - intros x Hx Hr. apply repeat_spec in Hr. subst x. apply in_concat in Hx as (l & Hl & Hx). apply in_map_iff in Hl as (u & <- & Hu). apply repeat_spec in Hx. subst u. contradiction.
Qed.
Lemma dd_copies {X} (l : list V) (k : list X) : k <> [] -> dd (concat (map (fun _ => l) k)) = dd l.
Proof.
  intros H. destruct k as [|x k]; [contradiction|]. cbn [map concat]. apply dd_app_in. intros y Hy. apply in_concat in Hy as (m & Hm & Hy). apply in_map_iff in Hm as (_ & <- & _). exact Hy.
Qed.

(** ** the mesh *)
Lemma length_mesh axs : length (mesh_rows axs) = fold_right Nat.mul 1%nat (map (@length V) axs).
Proof.
  clear veqb_eq veqb. induction axs as [|x axs IH]; [reflexivity|]. cbn [mesh_rows map fold_right]. rewrite <- IH. clear IH. induction x as [|v x IHx]; [reflexivity|].
  cbn [flat_map length]. rewrite app_length, map_length, IHx. lia.
Qed.
Lemma mesh_col_0 x axs : mesh_col zero (x :: axs) 0 = concat (map (fun v => repeat v (length (mesh_rows axs))) x).
Proof.
  unfold mesh_col. cbn [mesh_rows]. induction x as [|v x IH]; [reflexivity|]. cbn [flat_map map concat]. rewrite map_app, IH. f_equal. rewrite map_map. cbn [nth].
  generalize (mesh_rows axs) as r. induction r as [|y r IHr]; [reflexivity|]. cbn [map length repeat]. rewrite IHr. reflexivity.
Qed.
Lemma mesh_col_S x axs j : mesh_col zero (x :: axs) (S j) = concat (map (fun _ => mesh_col zero axs j) x).
Proof.
  unfold mesh_col. cbn [mesh_rows]. induction x as [|v x IH]; [reflexivity|]. cbn [flat_map map concat]. rewrite map_app, IH. f_equal. rewrite map_map. cbn [nth]. reflexivity.
Qed.
Lemma mesh_pos axs : Forall (fun x => x <> []) axs -> (0 < length (mesh_rows axs))%nat.
Proof. intros H. rewrite length_mesh. induction H as [|x axs Hx _ IH]; [cbn; lia|]. cbn [map fold_right]. destruct x; [contradiction|]. cbn [length]. lia. Qed.
Lemma dd_mesh_col axs : Forall (fun x => x <> [] /\ NoDup x) axs -> forall j, (j < length axs)%nat -> dd (mesh_col zero axs j) = nth j axs [].
Proof.
  intros H. induction H as [|x axs (Hx & ND) Hr IH]; intros j Hj; [cbn in Hj; lia|]. destruct j as [|j].
  - rewrite mesh_col_0, dd_blocks; [reflexivity| |exact ND]. apply mesh_pos. eapply Forall_impl; [|exact Hr]. cbn. tauto.
  - rewrite mesh_col_S, dd_copies by exact Hx. cbn [nth]. apply IH. cbn in Hj. lia.
Qed.
(** the first two rows differ in the last axis only *)
Lemma mesh_two axs : Forall (fun x => x <> [] /\ NoDup x) axs -> axs <> [] -> (2 <= length (last axs []))%nat ->
  exists r0 r1 rest, mesh_rows axs = r0 :: r1 :: rest /\
    forall j, (j < length axs)%nat -> veqb (nth j r0 zero) (nth j r1 zero) = negb (S j =? length axs)%nat.
Proof.
  intros H. induction H as [|x axs (Hx & ND) Hr IH]; intros Hne Hl; [contradiction|]. destruct axs as [|y axs].
  - cbn [last] in Hl. destruct x as [|a [|b x]]; cbn [length] in Hl; try lia. exists [a], [b]. eexists. split; [reflexivity|]. intros j Hj. cbn in Hj. replace j with O by lia. cbn.
    destruct (veqb a b) eqn:E; [|reflexivity]. apply veqb_eq in E. subst b. inversion ND as [|? ? Hn]; subst. exfalso. apply Hn. left. reflexivity.
  - destruct IH as (r0 & r1 & rest & E & Hj); [discriminate|exact Hl|]. destruct x as [|a x]; [contradiction|].
    change (mesh_rows ((a :: x) :: y :: axs)) with (map (cons a) (mesh_rows (y :: axs)) ++ flat_map (fun v => map (cons v) (mesh_rows (y :: axs))) x).
    replace (map (cons a) (mesh_rows (y :: axs))) with (map (cons a) (r0 :: r1 :: rest)) by (rewrite E; reflexivity). cbn [map app]. exists (a :: r0), (a :: r1). eexists. split; [reflexivity|]. intros [|j] Hlt; cbn [nth].
    + rewrite veqb_refl. cbn [length]. reflexivity.
    + cbn [length] in *. rewrite Hj by (cbn [length]; lia). reflexivity.
Qed.

(** ** columns *)
Definition mesh_cols (cs : list (nat * list V)) : list (nat * list V) :=
  map (fun p => (fst (snd p), mesh_col zero (map snd cs) (fst p))) (combine (seq 0 (length cs)) cs).
Lemma set_col_new name col cols : ~ In name (map fst cols) -> set_col name col cols = cols ++ [(name, col)].
Proof. induction cols as [|[k c] cols IH]; intros H; [reflexivity|]. cbn [set_col map In fst] in *. replace (k =? name)%nat with false by lia. cbn [app]. rewrite IH by tauto. reflexivity. Qed.
Lemma fold_set l : forall acc, NoDup (map fst acc ++ map fst l) -> fold_left (fun a (p : nat * list V) => set_col (fst p) (snd p) a) l acc = acc ++ l.
Proof.
  induction l as [|[k c] l IH]; intros acc ND; [rewrite app_nil_r; reflexivity|]. cbn [fold_left fst snd]. rewrite set_col_new.
  - rewrite IH; [rewrite <- app_assoc; reflexivity|]. rewrite map_app, <- app_assoc. exact ND.
  - intros H. cbn [map fst] in ND. apply NoDup_remove_2 in ND. apply ND. apply in_or_app. left. exact H.
Qed.
Lemma add_fields_ok n flds : forall cols, (forall p, In p flds -> length (snd p) = n) -> NoDup (map fst cols ++ map fst flds) -> add_fields n flds cols = Some (cols ++ flds).
Proof.
  induction flds as [|[k d] flds IH]; intros cols HL ND; [rewrite app_nil_r; reflexivity|]. cbn [add_fields]. pose proof (HL (k, d) (or_introl eq_refl)) as Hd. cbn [snd] in Hd. rewrite Hd, Nat.eqb_refl. rewrite set_col_new.
  - rewrite IH; [rewrite <- app_assoc; reflexivity|intros p Hp; apply HL; right; exact Hp|]. rewrite map_app, <- app_assoc. exact ND.
  - intros H. cbn [map fst] in ND. apply NoDup_remove_2 in ND. apply ND. apply in_or_app. left. exact H.
Qed.
Lemma fst_mesh_cols cs : map fst (mesh_cols cs) = map fst cs.
Proof.
  unfold mesh_cols. rewrite map_map. cbn [fst]. generalize O as i. generalize (map snd cs) as axs. intros axs. induction cs as [|c cs IH]; intros i; [reflexivity|].
  cbn [length seq combine map fst snd]. rewrite IH. reflexivity.
Qed.
Lemma existsb_time l : ~ In TIME (map fst l) -> existsb (fun p : nat * list V => (fst p =? TIME)%nat) l = false.
Proof. induction l as [|p l IH]; intros H; [reflexivity|]. cbn [existsb map In] in *. rewrite IH by tauto. replace (fst p =? TIME)%nat with false by (unfold TIME in *; lia). reflexivity. Qed.
(** the columns of one grid *)
Definition one (cs : list (nat * list V)) (g : grid V) : list (nat * list V) := (TIME, repeat (g_time g) (prod_len cs)) :: mesh_cols cs ++ g_flds g.
Lemma prod_mesh cs : length (mesh_rows (map snd cs)) = prod_len cs.
Proof. rewrite length_mesh. unfold prod_len. rewrite map_map. reflexivity. Qed.
Lemma grid_frame cs names gs g : series cs names gs -> In g gs -> grid_to_frame zero g = Some (FR (seq 0 (prod_len cs)) (one cs g)).
Proof.
  intros (_ & _ & Hnm & ND & _ & Hg) Hin. destruct (Hg g Hin) as (Ec & En & El). unfold grid_to_frame. destruct (g_flds g) as [|q r] eqn:Ef; [cbn in En; congruence|]. rewrite <- Ef in *. clear Ef q r.
  rewrite Ec. fold (mesh_cols cs). pose proof ND as ND0. apply NoDup_cons_iff in ND0 as (Ht & ND'). assert (NDc : NoDup (map fst cs)) by (clear -ND'; induction (map fst cs) as [|x l IH]; [constructor|]; cbn [app] in ND'; inversion ND' as [|? ? Hx Hl]; subst; constructor; [intros H; apply Hx; apply in_or_app; left; exact H|apply IH; exact Hl]).
  rewrite fold_set by (cbn [map app]; rewrite fst_mesh_cols; exact NDc). cbn [app]. rewrite existsb_time by (rewrite fst_mesh_cols; intros H; apply Ht; apply in_or_app; left; exact H).
  rewrite prod_mesh. rewrite add_fields_ok; [reflexivity|exact El|]. cbn [map fst app]. rewrite fst_mesh_cols, En. exact ND.
Qed.

(** ** joining *)
Lemma eq_names_refl l : eq_names l l = true.
Proof. induction l as [|x l IH]; [reflexivity|]. cbn. rewrite Nat.eqb_refl. exact IH. Qed.
(** [col k] of the table: the pieces of all grids one after the other *)
Definition pieces (cs : list (nat * list V)) (gs : list (grid V)) (k : nat) : list V := concat (map (fun g => nth k (map snd (one cs g)) []) gs).
Definition all_names (cs : list (nat * list V)) (names : list nat) : list nat := TIME :: map fst cs ++ names.
Lemma one_names cs names gs g : series cs names gs -> In g gs -> map fst (one cs g) = all_names cs names.
Proof. intros (_ & _ & _ & _ & _ & Hg) Hin. destruct (Hg g Hin) as (_ & En & _). unfold one, all_names. cbn [map fst]. rewrite map_app, fst_mesh_cols, En. reflexivity. Qed.
Lemma join_spec : forall a b : list (nat * list V), map fst a = map fst b -> join a b = combine (map fst a) (map (fun p => fst p ++ snd p) (combine (map snd a) (map snd b))).
Proof. induction a as [|[k x] a IH]; intros [|[k' y] b] E; try discriminate; [reflexivity|]. cbn [map fst snd combine join] in *. injection E as _ E. rewrite IH by exact E. reflexivity. Qed.
Lemma tab_as_combine (a : list (nat * list V)) : a = combine (map fst a) (map snd a).
Proof. induction a as [|[k x] a IH]; [reflexivity|]. cbn. rewrite <- IH. reflexivity. Qed.
Definition table (cs : list (nat * list V)) (names : list nat) (gs : list (grid V)) : list (nat * list V) :=
  combine (all_names cs names) (map (pieces cs gs) (seq 0 (length (all_names cs names)))).
Lemma nth_table (l : list (list V)) : map (fun k => nth k l []) (seq 0 (length l)) = l.
Proof.
  apply nth_ext with (d := []) (d' := []); [rewrite map_length, seq_length; reflexivity|]. intros i Hi. rewrite map_length, seq_length in Hi.
  rewrite (nth_indep _ [] (nth O l [])) by (rewrite map_length, seq_length; exact Hi). rewrite (map_nth (fun k => nth k l [])), seq_nth by exact Hi. reflexivity.
Qed.
Lemma combine_seq {X} (h : nat -> X) : forall (l : list nat) i, map fst (combine l (map h (seq i (length l)))) = l /\ map snd (combine l (map h (seq i (length l)))) = map h (seq i (length l)).
Proof. induction l as [|x l IH]; intros i; [split; reflexivity|]. cbn [length seq map combine fst snd]. destruct (IH (S i)) as (A & B). rewrite A, B. split; reflexivity. Qed.
Lemma fst_table cs names gs : map fst (table cs names gs) = all_names cs names.
Proof. apply combine_seq. Qed.
Lemma snd_table cs names gs : map snd (table cs names gs) = map (pieces cs gs) (seq 0 (length (all_names cs names))).
Proof. apply combine_seq. Qed.
Lemma concat_table cs names : forall gs', gs' <> [] -> (forall g, In g gs' -> map fst (one cs g) = all_names cs names) ->
  concat_cols (map (one cs) gs') = Some (table cs names gs').
Proof.
  assert (L1 : forall g, map fst (one cs g) = all_names cs names -> length (map snd (one cs g)) = length (all_names cs names)) by (intros g E; rewrite <- E, !map_length; reflexivity).
  induction gs' as [|g gs' IH]; intros Hne Hn; [contradiction|]. destruct gs' as [|g' gs'].
  - cbn [map concat_cols]. f_equal. unfold table, pieces. cbn [map concat]. rewrite (tab_as_combine (one cs g)). rewrite (Hn g (or_introl eq_refl)). f_equal.
    rewrite <- (L1 g (Hn g (or_introl eq_refl))). rewrite <- (nth_table (map snd (one cs g))) at 1. apply map_ext. intros k. rewrite app_nil_r. f_equal. rewrite <- (Hn g (or_introl eq_refl)). rewrite <- tab_as_combine. reflexivity.
  - change (map (one cs) (g :: g' :: gs')) with (one cs g :: map (one cs) (g' :: gs')). remember (g' :: gs') as tl0 eqn:Et. cbn [concat_cols].
    assert (Ec : exists a b, map (one cs) tl0 = a :: b) by (rewrite Et; cbn; eauto). destruct Ec as (a & b & Ec). rewrite Ec. rewrite <- Ec. rewrite IH; [|rewrite Et; discriminate|intros x Hx; apply Hn; right; exact Hx].
    assert (Ef : map fst (table cs names tl0) = all_names cs names) by apply fst_table.
    rewrite Ef, (Hn g (or_introl eq_refl)), eq_names_refl. f_equal. rewrite join_spec by (rewrite Ef; apply Hn; left; reflexivity). rewrite (Hn g (or_introl eq_refl)). unfold table at 2. f_equal.
    assert (Es : map snd (table cs names tl0) = map (pieces cs tl0) (seq 0 (length (all_names cs names)))) by apply snd_table.
    rewrite Es. rewrite <- (L1 g (Hn g (or_introl eq_refl))). unfold pieces at 2. cbn [map concat]. fold (pieces cs tl0).
    assert (Az : forall (l : list (list V)) (h : nat -> list V), map (fun p => fst p ++ snd p) (combine l (map h (seq 0 (length l)))) = map (fun k => nth k l [] ++ h k) (seq 0 (length l))).
    { intros l h. rewrite <- (nth_table l) at 1. generalize (seq 0 (length l)) as ks. induction ks as [|k ks IHk]; [reflexivity|]. cbn [map combine fst snd]. rewrite IHk. reflexivity. }
    rewrite Az. reflexivity.
Qed.
Lemma to_frame_ok cs names gs : series cs names gs -> to_frame zero gs = Some (FR (seq 0 (length gs * prod_len cs)) (table cs names gs)).
Proof.
  intros Hs. unfold to_frame.
  assert (A : forall gs', (forall g, In g gs' -> In g gs) -> all_frames zero gs' = Some (map (fun g => FR (seq 0 (prod_len cs)) (one cs g)) gs')).
  { induction gs' as [|g gs' IH]; intros Hin; [reflexivity|]. cbn [all_frames map]. rewrite (grid_frame cs names gs g Hs (Hin g (or_introl eq_refl))). rewrite IH by (intros x Hx; apply Hin; right; exact Hx). reflexivity. }
  rewrite A by auto. rewrite map_map. cbn [fr_cols]. change (map (fun x => one cs x) gs) with (map (one cs) gs). rewrite (concat_table cs names gs).
  - f_equal. f_equal. f_equal. rewrite map_map. cbn [fr_labels]. generalize gs as l. induction l as [|g l IH]; [reflexivity|]. cbn [map fold_right length]. rewrite IH, seq_length. lia.
  - apply Hs.
  - intros g Hg. apply (one_names cs names gs g Hs Hg).
Qed.

(** ** back *)
Lemma map_snd_combine {X} : forall (l : list X) (c : list V), length l = length c -> map snd (combine l c) = c.
Proof. induction l as [|x l IH]; intros [|v c] E; try discriminate; [reflexivity|]. cbn. rewrite IH by (cbn in E; lia). reflexivity. Qed.
Lemma rows_where_app m1 m2 (c1 c2 : list V) : length m1 = length c1 -> rows_where (m1 ++ m2) (c1 ++ c2) = rows_where m1 c1 ++ rows_where m2 c2.
Proof.
  intros E. unfold rows_where. revert c1 E. induction m1 as [|b m1 IH]; intros [|v c1] E; try discriminate; [reflexivity|]. cbn [app combine filter fst]. destruct b; cbn [map snd app]; rewrite IH by (cbn in E; lia); reflexivity.
Qed.
Lemma rows_where_const (b : bool) n (c : list V) : length c = n -> rows_where (repeat b n) c = if b then c else [].
Proof.
  intros <-. unfold rows_where. induction c as [|v c IH]; [destruct b; reflexivity|]. cbn [length repeat combine filter fst]. destruct b; cbn [map snd]; rewrite IH; reflexivity.
Qed.
Lemma map_repeat {X Y} (h : X -> Y) x n : map h (repeat x n) = repeat (h x) n.
Proof. induction n as [|n IH]; [reflexivity|]. cbn. rewrite IH. reflexivity. Qed.
Lemma rows_blocks n (h : grid V -> list V) t : forall gs, (forall g, In g gs -> length (h g) = n) ->
  rows_where (map (fun v => veqb v t) (concat (map (fun g => repeat (g_time g) n) gs))) (concat (map h gs)) = concat (map h (filter (fun g => veqb (g_time g) t) gs)).
Proof.
  induction gs as [|g gs IH]; intros HL; [reflexivity|]. cbn [map concat filter]. rewrite map_app, map_repeat. rewrite rows_where_app by (rewrite repeat_length; symmetry; apply HL; left; reflexivity).
  rewrite rows_where_const by (apply HL; left; reflexivity). rewrite IH by (intros x Hx; apply HL; right; exact Hx). destruct (veqb (g_time g) t); reflexivity.
Qed.
Lemma filter_time gs g : NoDup (map g_time gs) -> In g gs -> filter (fun x => veqb (g_time x) (g_time g)) gs = [g].
Proof.
  intros ND H. induction gs as [|x gs IH]; [contradiction|]. cbn [map] in ND. apply NoDup_cons_iff in ND as (Hx & ND). cbn [filter]. destruct H as [->|H].
  - rewrite veqb_refl. f_equal. assert (A : forall l, ~ In (g_time g) (map g_time l) -> filter (fun x => veqb (g_time x) (g_time g)) l = []).
    { induction l as [|y l IHl]; intros Hn; [reflexivity|]. cbn [filter map In] in *. destruct (veqb (g_time y) (g_time g)) eqn:E; [apply veqb_eq in E; tauto|]. apply IHl. tauto. }
    apply A. exact Hx.
  - destruct (veqb (g_time x) (g_time g)) eqn:E; [|apply IH; assumption]. apply veqb_eq in E. exfalso. apply Hx. rewrite E. apply in_map. exact H.
Qed.
Lemma get_col_mid pre k c post : ~ In k (map fst pre) -> get_col k (pre ++ (k, c) :: post) = Some (c : list V).
Proof. induction pre as [|[a x] pre IH]; intros H; cbn [app get_col]; [rewrite Nat.eqb_refl; reflexivity|]. cbn [map fst In] in H. replace (a =? k)%nat with false by lia. apply IH. tauto. Qed.
Lemma all_cols_mid l : forall pre post, NoDup (map fst (pre ++ l ++ post)) -> all_cols (map fst l) (pre ++ l ++ post) = Some (l : list (nat * list V)).
Proof.
  induction l as [|[k c] l IH]; intros pre post ND; [reflexivity|]. cbn [map fst all_cols app]. rewrite get_col_mid.
  - specialize (IH (pre ++ [(k, c)]) post). rewrite <- app_assoc in IH. cbn [app] in *. rewrite IH by exact ND. reflexivity.
  - rewrite map_app in ND. cbn [app map fst] in ND. apply NoDup_remove_2 in ND. intros H. apply ND. apply in_or_app. left. exact H.
Qed.
Lemma find_crds_prefix (l f : list (nat * list V)) : l <> [] ->
  (forall i, (i < length l)%nat -> exists a b r, nth i (map snd l) [] = a :: b :: r /\ veqb a b = negb (S i =? length l)%nat) -> find_crds veqb (l ++ f) = map fst l.
Proof.
  induction l as [|[k c] l IH]; intros Hne H; [contradiction|]. destruct (H O ltac:(cbn; lia)) as (a & b & r & E & Eb). cbn [map snd nth] in E. subst c. cbn [app find_crds]. rewrite Eb. cbn [length map fst].
  destruct l as [|p l]; [reflexivity|]. cbn [length Nat.eqb negb]. f_equal. apply IH; [discriminate|]. intros i Hi. destruct (H (S i) ltac:(cbn [length] in *; lia)) as (a' & b' & r' & E' & Eb'). exists a', b', r'. split; [exact E'|exact Eb'].
Qed.
Lemma nth_mesh_cols cs j : (j < length cs)%nat -> nth j (map snd (mesh_cols cs)) [] = mesh_col zero (map snd cs) j.
Proof.
  intros Hj. unfold mesh_cols. rewrite map_map. cbn [snd]. generalize (map snd cs) as axs. intros axs. assert (A : forall cs i j, (j < length cs)%nat -> nth j (map (fun p : nat * (nat * list V) => mesh_col zero axs (fst p)) (combine (seq i (length cs)) cs)) [] = mesh_col zero axs (i + j)).
  { clear. induction cs as [|c cs IH]; intros i j Hj; [cbn in Hj; lia|]. cbn [length seq combine map fst]. destruct j as [|j]; cbn [nth]; [f_equal; lia|]. rewrite IH by (cbn in Hj; lia). f_equal. lia. }
  rewrite A by exact Hj. reflexivity.
Qed.
Lemma length_mesh_col cs j : length (mesh_col zero (map snd cs) j) = prod_len cs.
Proof. unfold mesh_col. rewrite map_length. apply prod_mesh. Qed.
Lemma length_mesh_cols cs : length (mesh_cols cs) = length cs.
Proof. rewrite <- (map_length fst), fst_mesh_cols, map_length. reflexivity. Qed.

Section ROUND.
Variables (cs : list (nat * list V)) (names : list nat) (gs : list (grid V)).
Hypothesis Hs : series cs names gs.
Let n := prod_len cs.
Let N := length (all_names cs names).
Lemma Npos : (0 < n)%nat.
Proof.
  unfold n. rewrite <- prod_mesh. apply mesh_pos. apply Forall_forall. intros x Hx. apply in_map_iff in Hx as (c & <- & Hc). destruct Hs as (_ & _ & _ & _ & Hc' & _). apply (Hc' c Hc).
Qed.
Lemma NDall : NoDup (all_names cs names). Proof. apply Hs. Qed.
Lemma piece_len g k : In g gs -> (k < N)%nat -> length (nth k (map snd (one cs g)) []) = n.
Proof.
  intros Hg Hk. destruct Hs as (_ & _ & _ & _ & _ & H). destruct (H g Hg) as (_ & En & El).
  assert (A : forall c, In c (map snd (one cs g)) -> length c = n).
  { intros c Hc. unfold one in Hc. cbn [map snd In] in Hc. destruct Hc as [<-|Hc]; [apply repeat_length|]. rewrite map_app in Hc. apply in_app_or in Hc as [Hc|Hc].
    - apply (In_nth _ _ []) in Hc as (j & Hj & <-). rewrite map_length, length_mesh_cols in Hj. rewrite nth_mesh_cols by exact Hj. apply length_mesh_col.
    - apply in_map_iff in Hc as (p & <- & Hp). apply El. exact Hp. }
  apply A. apply nth_In. rewrite map_length. rewrite <- (map_length fst), (one_names cs names gs g Hs Hg). exact Hk.
Qed.
Let P := pieces cs gs.
Lemma piece_pick g k : In g gs -> (k < N)%nat -> rows_where (map (fun v => veqb v (g_time g)) (P 0%nat)) (P k) = nth k (map snd (one cs g)) [].
Proof.
  intros Hg Hk. unfold P, pieces. change (fun g0 => nth 0 (map snd (one cs g0)) []) with (fun g0 : grid V => repeat (g_time g0) n).
  rewrite (rows_blocks n (fun g0 => nth k (map snd (one cs g0)) [])) by (intros x Hx; apply piece_len; assumption). rewrite filter_time by (try apply Hs; exact Hg). cbn [map concat]. apply app_nil_r.
Qed.
Lemma P_len k : (k < N)%nat -> length (P k) = (length gs * n)%nat.
Proof.
  intros Hk. unfold P, pieces. assert (A : forall l, (forall g, In g l -> In g gs) -> length (concat (map (fun g => nth k (map snd (one cs g)) []) l)) = (length l * n)%nat).
  { induction l as [|g l IH]; intros Hin; [reflexivity|]. cbn [map concat length]. rewrite app_length, IH by (intros x Hx; apply Hin; right; exact Hx). rewrite piece_len by (try exact Hk; apply Hin; left; reflexivity). lia. }
  apply A. auto.
Qed.
Definition crd_part := combine (map fst cs) (map P (seq 1 (length cs))).
Definition fld_part := combine names (map P (seq (S (length cs)) (length names))).
Lemma combine_app {X Y} : forall (a1 a2 : list X) (b1 b2 : list Y), length a1 = length b1 -> combine (a1 ++ a2) (b1 ++ b2) = combine a1 b1 ++ combine a2 b2.
Proof. induction a1 as [|x a1 IH]; intros a2 [|y b1] b2 E; try discriminate; [reflexivity|]. cbn [app combine]. rewrite IH by (cbn in E; lia). reflexivity. Qed.
Lemma table_split : table cs names gs = (TIME, P 0%nat) :: crd_part ++ fld_part.
Proof.
  unfold table, all_names, crd_part, fld_part. fold P. cbn [length seq map combine]. f_equal. rewrite app_length, map_length, seq_app, map_app. rewrite combine_app by (rewrite !map_length, seq_length; reflexivity). reflexivity.
Qed.
Lemma fst_combine_map {X} (h : nat -> X) : forall (l : list nat) i, map fst (combine l (map h (seq i (length l)))) = l.
Proof. intros l i. apply combine_seq. Qed.
Lemma fst_crd : map fst crd_part = map fst cs.
Proof. unfold crd_part. replace (length cs) with (length (map fst cs)) by apply map_length. apply fst_combine_map. Qed.
Lemma fst_fld : map fst fld_part = names.
Proof. apply fst_combine_map. Qed.
Lemma combine_map_snd (h : list V -> list V) : forall (l : list nat) (c : list (list V)), map (fun p => (fst p, h (snd p))) (combine l c) = combine l (map h c).
Proof. induction l as [|x l IH]; intros [|v c]; try reflexivity. cbn [combine map fst snd]. rewrite IH. reflexivity. Qed.
(** what one time of the table holds *)
Lemma pick_crd g : In g gs -> map (fun p => (fst p, rows_where (map (fun v => veqb v (g_time g)) (P 0%nat)) (snd p))) crd_part = mesh_cols cs.
Proof.
  intros Hg. unfold crd_part. rewrite combine_map_snd, map_map. rewrite (tab_as_combine (mesh_cols cs)), fst_mesh_cols. f_equal.
  apply nth_ext with (d := []) (d' := []); [rewrite !map_length, seq_length, length_mesh_cols; reflexivity|]. intros j Hj. rewrite map_length, seq_length in Hj.
  set (h := fun x => rows_where (map (fun v => veqb v (g_time g)) (P 0%nat)) (P x)). rewrite (nth_indep _ [] (h O)) by (rewrite map_length, seq_length; exact Hj). rewrite map_nth, seq_nth by exact Hj. unfold h.
  rewrite piece_pick by (try exact Hg; unfold N, all_names; cbn [length]; rewrite app_length, map_length; lia). unfold one. cbn [Nat.add map snd nth]. rewrite map_app, app_nth1 by (rewrite map_length, length_mesh_cols; exact Hj). reflexivity.
Qed.
Lemma pick_fld g : In g gs -> map (fun p => (fst p, rows_where (map (fun v => veqb v (g_time g)) (P 0%nat)) (snd p))) fld_part = g_flds g.
Proof.
  intros Hg. destruct Hs as (_ & _ & _ & _ & _ & H). destruct (H g Hg) as (_ & En & _). unfold fld_part. rewrite combine_map_snd, map_map. rewrite (tab_as_combine (g_flds g)), En. f_equal.
  assert (Ln : length names = length (g_flds g)) by (rewrite <- En, map_length; reflexivity).
  apply nth_ext with (d := []) (d' := []); [rewrite !map_length, seq_length; exact Ln|]. intros j Hj. rewrite map_length, seq_length in Hj.
  set (h := fun x => rows_where (map (fun v => veqb v (g_time g)) (P 0%nat)) (P x)). rewrite (nth_indep _ [] (h O)) by (rewrite map_length, seq_length; exact Hj). rewrite map_nth, seq_nth by exact Hj. unfold h.
  rewrite piece_pick by (try exact Hg; unfold N, all_names; cbn [length]; rewrite app_length, map_length; lia). unfold one. cbn [Nat.add map snd nth]. rewrite map_app, app_nth2 by (rewrite map_length, length_mesh_cols; lia).
  rewrite map_length, length_mesh_cols. f_equal. lia.
Qed.
Lemma crds_back labels : length labels = (length gs * n)%nat -> map (fun p => (fst p, col_uniq veqb labels (snd p))) crd_part = cs.
Proof.
  intros HL. unfold crd_part. rewrite combine_map_snd, map_map. transitivity (combine (map fst cs) (map snd cs)); [f_equal|symmetry; apply tab_as_combine].
  apply nth_ext with (d := []) (d' := []); [rewrite !map_length, seq_length; reflexivity|]. intros j Hj. rewrite map_length, seq_length in Hj.
  set (h := fun x => col_uniq veqb labels (P x)). rewrite (nth_indep _ [] (h O)) by (rewrite map_length, seq_length; exact Hj). rewrite map_nth, seq_nth by exact Hj. unfold h, col_uniq.
  assert (HN : (1 + j < N)%nat) by (unfold N, all_names; cbn [length]; rewrite app_length, map_length; lia).
  change (map snd (uniq veqb (combine labels (P (1 + j))))) with (keys (combine labels (P (1 + j)))). rewrite keys_dd, map_snd_combine by (rewrite P_len; assumption).
  unfold P, pieces. transitivity (dd (concat (map (fun _ : grid V => mesh_col zero (map snd cs) j) gs))).
  - f_equal. f_equal. apply map_ext. intros g. unfold one. cbn [Nat.add map snd nth]. rewrite map_app, app_nth1 by (rewrite map_length, length_mesh_cols; exact Hj). apply nth_mesh_cols. exact Hj.
  - rewrite dd_copies by apply Hs. apply dd_mesh_col; [|rewrite map_length; exact Hj]. apply Forall_forall. intros x Hx. apply in_map_iff in Hx as (c & <- & Hc). destruct Hs as (_ & _ & _ & _ & Hc' & _). apply (Hc' c Hc).
Qed.
Lemma times_back labels : length labels = (length gs * n)%nat -> map snd (uniq veqb (combine labels (P 0%nat))) = map g_time gs.
Proof.
  intros HL. change (map snd (uniq veqb (combine labels (P 0%nat)))) with (keys (combine labels (P 0%nat))).
  assert (HN : (0 < N)%nat) by (unfold N, all_names; cbn; lia). rewrite keys_dd, map_snd_combine by (rewrite P_len; assumption).
  unfold P, pieces. change (fun g => nth 0 (map snd (one cs g)) []) with (fun g : grid V => repeat (g_time g) n). rewrite <- (map_map g_time (fun t => repeat t n)). apply dd_blocks; [exact Npos|apply Hs].
Qed.
Lemma first_time : exists g0 r, gs = g0 :: r /\ label_of 0 (uniq veqb (combine (seq 0 (length gs * n)) (P 0%nat))) = Some (g_time g0).
Proof.
  pose proof Npos as Hn. pose proof (proj1 Hs) as Hne. unfold P, pieces. clear Hs. destruct gs as [|g0 r]; [exfalso; apply Hne; reflexivity|]. exists g0, r. split; [reflexivity|].
  assert (E0 : exists m rest, seq 0 (length (g0 :: r) * n) = 0%nat :: m /\ concat (map (fun g => nth 0 (map snd (one cs g)) []) (g0 :: r)) = g_time g0 :: rest).
  { cbn [map concat length]. change (nth 0 (map snd (one cs g0)) []) with (repeat (g_time g0) n). destruct n as [|n']; [lia|]. cbn [repeat app Nat.mul Nat.add seq]. eexists. eexists. split; reflexivity. }
  destruct E0 as (m & rest & -> & ->). reflexivity.
Qed.
Lemma rest_ok : filter (fun p : nat * list V => negb (fst p =? TIME)%nat) (table cs names gs) = crd_part ++ fld_part.
Proof.
  rewrite table_split. cbn [filter fst]. rewrite Nat.eqb_refl. cbn [negb]. assert (A : forall l : list (nat * list V), ~ In TIME (map fst l) -> filter (fun p => negb (fst p =? TIME)%nat) l = l).
  { induction l as [|p l IH]; intros H; [reflexivity|]. cbn [filter map In] in *. replace (fst p =? TIME)%nat with false by (unfold TIME in *; lia). cbn [negb]. rewrite IH by tauto. reflexivity. }
  apply A. rewrite map_app, fst_crd, fst_fld. pose proof NDall as ND. unfold all_names in ND. apply NoDup_cons_iff in ND. apply ND.
Qed.
Lemma flds_ok : filter (fun p : nat * list V => negb (in_names (map fst cs) (fst p))) (crd_part ++ fld_part) = fld_part.
Proof.
  rewrite filter_app.
  assert (A : forall l : list (nat * list V), (forall k, In k (map fst l) -> In k (map fst cs)) -> filter (fun p => negb (in_names (map fst cs) (fst p))) l = []).
  { induction l as [|p l IH]; intros H; [reflexivity|]. cbn [filter map In] in *. replace (in_names (map fst cs) (fst p)) with true; [cbn [negb]; apply IH; intros k Hk; apply H; right; exact Hk|].
    symmetry. apply existsb_exists. exists (fst p). split; [apply H; left; reflexivity|apply Nat.eqb_refl]. }
  assert (B : forall l : list (nat * list V), (forall k, In k (map fst l) -> ~ In k (map fst cs)) -> filter (fun p => negb (in_names (map fst cs) (fst p))) l = l).
  { induction l as [|p l IH]; intros H; [reflexivity|]. cbn [filter map In] in *. destruct (in_names (map fst cs) (fst p)) eqn:E.
    - apply existsb_exists in E as (k & Hk & Ek). apply Nat.eqb_eq in Ek. subst k. exfalso. apply (H (fst p)); [left; reflexivity|exact Hk].
    - cbn [negb]. rewrite IH by (intros k Hk; apply H; right; exact Hk). reflexivity. }
  rewrite A by (rewrite fst_crd; auto). rewrite B; [reflexivity|]. rewrite fst_fld. intros k Hk Hc. pose proof NDall as ND. unfold all_names in ND. apply NoDup_cons_iff in ND as (_ & ND).
  clear -ND Hk Hc. induction (map fst cs) as [|x l IH]; [contradiction|]. cbn [app] in ND. apply NoDup_cons_iff in ND as (Hx & ND). destruct Hc as [->|Hc]; [apply Hx; apply in_or_app; right; exact Hk|apply IH; assumption].
Qed.
Lemma reshape_ok flds : (forall p, In p flds -> length (snd p) = n) -> reshape_all n flds = Some (flds : list (nat * list V)).
Proof. induction flds as [|[k d] flds IH]; intros H; [reflexivity|]. cbn [reshape_all]. pose proof (H (k, d) (or_introl eq_refl)) as Hd. cbn [snd] in Hd. rewrite Hd, Nat.eqb_refl, IH by (intros p Hp; apply H; right; exact Hp). reflexivity. Qed.
Lemma grids_ok : grids_of veqb (map g_time gs) (Some (P 0%nat)) cs fld_part n = Some gs.
Proof.
  assert (A : forall l, (forall g, In g l -> In g gs) -> grids_of veqb (map g_time l) (Some (P 0%nat)) cs fld_part n = Some l).
  { induction l as [|g l IH]; intros Hin; [reflexivity|]. cbn [map grids_of]. rewrite (pick_fld g (Hin g (or_introl eq_refl))). destruct Hs as (_ & _ & _ & _ & _ & H). destruct (H g (Hin g (or_introl eq_refl))) as (Ec & _ & El).
    rewrite reshape_ok by exact El. rewrite IH by (intros x Hx; apply Hin; right; exact Hx). f_equal. f_equal. destruct g as [t c f]. cbn [g_crds g_time g_flds] in *. rewrite Ec. reflexivity. }
  apply A. auto.
Qed.
Lemma round_given : from_frame veqb zero (FR (seq 0 (length gs * n)) (table cs names gs)) (Some (map fst cs)) = Some gs.
Proof.
  unfold from_frame. cbn [fr_cols fr_labels]. rewrite rest_ok, flds_ok. rewrite table_split. cbn [get_col]. rewrite Nat.eqb_refl. destruct first_time as (g0 & r & Eg & E0). rewrite E0. cbn [fst snd].
  rewrite times_back by apply seq_length.
  assert (Ea : all_cols (map fst cs) ((TIME, P 0%nat) :: crd_part ++ fld_part) = Some crd_part).
  { rewrite <- fst_crd. apply (all_cols_mid crd_part [(TIME, P 0%nat)] fld_part). cbn [app map fst]. rewrite map_app, fst_crd, fst_fld. exact NDall. }
  rewrite Ea. rewrite crds_back by apply seq_length. exact grids_ok.
Qed.
Lemma round_found : cs <> [] -> (2 <= length (snd (last cs (O, []))))%nat -> from_frame veqb zero (FR (seq 0 (length gs * n)) (table cs names gs)) None = Some gs.
Proof.
  intros Hne H2. rewrite <- round_given. unfold from_frame. cbn [fr_cols fr_labels]. rewrite rest_ok. destruct first_time as (g0 & r & Eg & E0).
  replace (get_col TIME (table cs names gs)) with (Some (P 0%nat)) by (rewrite table_split; cbn [get_col]; rewrite Nat.eqb_refl; reflexivity). rewrite E0. cbn [fst snd].
  assert (Hg0 : In g0 gs) by (rewrite Eg; left; reflexivity). rewrite map_app, (pick_crd g0 Hg0), (pick_fld g0 Hg0).
  assert (Fa : Forall (fun x : list V => x <> [] /\ NoDup x) (map snd cs)) by (apply Forall_forall; intros x Hx; apply in_map_iff in Hx as (c & <- & Hc); destruct Hs as (_ & _ & _ & _ & Hc' & _); apply (Hc' c Hc)).
  destruct (mesh_two (map snd cs) Fa) as (r0 & r1 & rest & Em & Hj).
  { destruct cs; [contradiction|discriminate]. }
  { replace (last (map snd cs) []) with (snd (last cs (O, []))); [exact H2|]. clear. induction cs as [|c l IH]; [reflexivity|]. cbn [map]. destruct l; [reflexivity|exact IH]. }
  rewrite map_length in Hj.
  assert (Ef : find_crds veqb (mesh_cols cs ++ g_flds g0) = map fst cs).
  { rewrite <- fst_mesh_cols. apply find_crds_prefix.
    - intros E. apply (f_equal (@length _)) in E. rewrite length_mesh_cols in E. destruct cs; [contradiction|discriminate].
    - rewrite length_mesh_cols. intros i Hi. rewrite nth_mesh_cols by exact Hi. unfold mesh_col. rewrite Em. cbn [map]. eexists. eexists. eexists. split; [reflexivity|]. apply Hj. exact Hi. }
  rewrite Ef.
  assert (Eh : exists k a b c tl, mesh_cols cs ++ g_flds g0 = (k, a :: b :: c) :: tl).
  { pose proof (nth_mesh_cols cs 0) as E1. pose proof (length_mesh_cols cs) as L1. destruct (mesh_cols cs) as [|[k c] m] eqn:Emc; [destruct cs; [contradiction|discriminate]|].
    specialize (E1 ltac:(destruct cs; [contradiction|cbn; lia])). cbn [map snd nth] in E1. unfold mesh_col in E1. rewrite Em in E1. cbn [map] in E1. subst c. cbn [app]. eexists. eexists. eexists. eexists. eexists. reflexivity. }
  destruct Eh as (k & a & b & c & tl0 & ->). reflexivity.
Qed.
End ROUND.
End P.

(** A series of grids turned into a table and read back, with the names of the coordinates given, is the same series: times, coordinates, names and all values. *)
Theorem C81_round_trip_given : forall (V : Type) (veqb : V -> V -> bool) zero, (forall a b, veqb a b = true <-> a = b) ->
  forall cs names gs, series cs names gs ->
  exists fr, to_frame zero gs = Some fr /\ from_frame veqb zero fr (Some (map fst cs)) = Some gs.
Proof. intros V veqb zero Hv cs names gs Hs. eexists. split; [eapply to_frame_ok; eassumption|]. eapply round_given; eassumption. Qed.
Print Assumptions C81_round_trip_given.
(** So it is when the coordinates are to be found, if the last axis has two points or more. *)
Theorem C81_round_trip : forall (V : Type) (veqb : V -> V -> bool) zero, (forall a b, veqb a b = true <-> a = b) ->
  forall cs names gs, series cs names gs -> cs <> [] -> (2 <= length (snd (last cs (O, []))))%nat ->
  exists fr, to_frame zero gs = Some fr /\ from_frame veqb zero fr None = Some gs.
Proof. intros V veqb zero Hv cs names gs Hs Hne H2. eexists. split; [eapply to_frame_ok; eassumption|]. eapply round_found; eassumption. Qed.
Print Assumptions C81_round_trip.

(** ** what is lost *)
(** Refuted: rows taken out of a table, so that the first row of all is not there and no time is zero, are not read back, although the coordinates are given: the first
    of the times is looked up by the label of its row. *)
Theorem C81_rows_taken_out_refuted : forall (V : Type) (veqb : V -> V -> bool) zero, (forall a b, veqb a b = true <-> a = b) ->
  forall fr names tc f d, ~ In O (fr_labels fr) -> get_col TIME (fr_cols fr) = Some tc -> ~ In zero tc ->
    (forall k, In k names -> exists c, get_col k (fr_cols fr) = Some c /\ combine (fr_labels fr) c <> []) ->
    In (f, d) (fr_cols fr) -> f <> TIME -> ~ In f names ->
  from_frame veqb zero fr (Some names) = None.
Proof.
  intros V veqb zero Hv fr names tc f d HL Ht Hz Hc Hf Hft Hfn. unfold from_frame. rewrite Ht.
  assert (El : label_of 0 (uniq veqb (combine (fr_labels fr) tc)) = None).
  { assert (A : forall l : list (nat * V), ~ In O (map fst l) -> label_of 0 l = None).
    { induction l as [|[a v] l IH]; intros H; [reflexivity|]. cbn [label_of map fst In] in *. replace (a =? 0)%nat with false by lia. apply IH. tauto. }
    assert (B : forall l : list (nat * V), forall p, In p (uniq veqb l) -> In p l).
    { induction l as [|q l IH]; intros p Hp; [exact Hp|]. cbn [uniq In] in Hp. destruct Hp as [->|Hp]; [left; reflexivity|]. apply filter_In in Hp as (Hp & _). right. auto. }
    apply A. intros Hin. apply in_map_iff in Hin as ([a v] & Ea & Hin). cbn in Ea. subst a. apply B in Hin. apply in_combine_l in Hin. contradiction. }
  rewrite El. destruct (all_cols names (fr_cols fr)) as [cc|] eqn:Ecc; [|reflexivity].
  set (crds := map (fun p => (fst p, col_uniq veqb (fr_labels fr) (snd p))) cc).
  assert (Np : (0 < fold_right Nat.mul 1%nat (map (fun p : nat * list V => length (snd p)) crds))%nat).
  { unfold crds. clear crds. revert cc Ecc. induction names as [|k names IH]; intros cc Ecc; [injection Ecc as <-; cbn; lia|]. cbn [all_cols] in Ecc.
    destruct (Hc k (or_introl eq_refl)) as (c & Ek & Hne). rewrite Ek in Ecc. destruct (all_cols names (fr_cols fr)) as [cs|] eqn:E; [|discriminate]. injection Ecc as <-. cbn [map fold_right fst snd].
    apply Nat.mul_pos_pos; [|apply IH; [intros j Hj; apply Hc; right; exact Hj|intros H; apply Hfn; right; exact H|reflexivity]].
    unfold col_uniq. destruct (combine (fr_labels fr) c); [contradiction|]. cbn. lia. }
  cbn [grids_of]. set (flds := filter _ _).
  assert (Hin : In (f, d) flds).
  { unfold flds. apply filter_In. split; [apply filter_In; split; [exact Hf|cbn; unfold TIME in *; lia]|]. cbn [fst]. destruct (in_names names f) eqn:E; [|reflexivity]. apply existsb_exists in E as (j & Hj & Ej). apply Nat.eqb_eq in Ej. subst j. contradiction. }
  assert (E0 : forall c : list V, rows_where (map (fun v => veqb v zero) tc) c = []).
  { intros c. unfold rows_where. revert c. clear -Hz Hv. induction tc as [|x tc IH]; intros c; [reflexivity|]. destruct c as [|y c]; [reflexivity|]. cbn [map combine filter fst In] in *.
    destruct (veqb x zero) eqn:E; [apply Hv in E; tauto|]. apply IH. tauto. }
  replace (reshape_all _ _) with (@None (list (nat * list V))); [reflexivity|]. symmetry. set (n := fold_right _ _ _) in *. clearbody n flds. clear -Hin E0 Np.
  induction flds as [|[k c] flds IH]; [contradiction|]. cbn [map reshape_all fst snd]. rewrite E0. cbn [length]. replace (0 =? n)%nat with false by lia. reflexivity.
Qed.
Print Assumptions C81_rows_taken_out_refuted.
(** A field that has not one value for each point, such as a vector, makes the whole conversion fail. *)
Theorem C81_vector_refuted : forall (V : Type) (zero : V) gs g p, In g gs -> In p (g_flds g) -> length (snd p) <> prod_len (g_crds g) -> to_frame zero gs = None.
Proof.
  intros V zero gs g p Hg Hp Hl. assert (E : grid_to_frame zero g = None).
  { unfold grid_to_frame. destruct (g_flds g) as [|q fl] eqn:Ef; [contradiction|]. rewrite <- Ef in *. destruct (existsb _ _); [reflexivity|].
    assert (A : forall fl0 n cols, In p fl0 -> length (snd p) <> n -> add_fields (V := V) n fl0 cols = None).
    { induction fl0 as [|[k d] fl0 IH]; intros n cols H0 H1; [contradiction|]. cbn [add_fields]. destruct (length d =? n)%nat eqn:E; [|reflexivity]. destruct H0 as [<-|H0]; [cbn [snd] in H1; lia|]. apply IH; assumption. }
    rewrite A; [reflexivity|exact Hp|]. pose proof (length_mesh (map snd (g_crds g))) as Em. rewrite map_map in Em. fold (prod_len (g_crds g)) in Em. rewrite Em. exact Hl. }
  unfold to_frame. assert (A : all_frames zero gs = None).
  { clear Hp Hl. induction gs as [|x gs IH]; [contradiction|]. cbn [all_frames]. destruct Hg as [->|Hg]; [rewrite E; reflexivity|]. rewrite (IH Hg). destruct (grid_to_frame zero x); reflexivity. }
  rewrite A. reflexivity.
Qed.
Print Assumptions C81_vector_refuted.
(** Refuted: a last axis with one point is not found; it comes back as a field and is no axis any more. *)
Definition flat_grid : grid nat := GR 7%nat [(1%nat, [11; 12]%nat); (2%nat, [5%nat])] [(3%nat, [100; 200]%nat)].
Theorem C81_last_axis_single_refuted : exists fr, series (g_crds flat_grid) [3%nat] [flat_grid] /\ to_frame O [flat_grid] = Some fr /\
  from_frame Nat.eqb O fr None = Some [GR 7%nat [(1%nat, [11; 12]%nat)] [(2%nat, [5; 5]%nat); (3%nat, [100; 200]%nat)]].
Proof.
  eexists. split; [|split; [vm_compute; reflexivity|vm_compute; reflexivity]]. unfold series, flat_grid, prod_len. cbn.
  split; [discriminate|]. split; [repeat constructor; cbn; tauto|]. split; [discriminate|]. split; [unfold TIME; repeat constructor; cbn; lia|].
  split; [intros c [<-|[<-|[]]]; (split; [discriminate|]); repeat constructor; cbn; lia|]. intros g [<-|[]]. cbn. split; [reflexivity|]. split; [reflexivity|]. intros q [<-|[]]. reflexivity.
Qed.
Print Assumptions C81_last_axis_single_refuted.
(** Refuted: a field that is called as an axis takes the place of the axis. *)
Theorem C81_field_named_as_axis_refuted : exists fr, to_frame O [GR 7%nat [(1%nat, [11; 12]%nat)] [(1%nat, [100; 200]%nat); (3%nat, [8; 9]%nat)]] = Some fr /\
  from_frame Nat.eqb O fr (Some [1%nat]) = Some [GR 7%nat [(1%nat, [100; 200]%nat)] [(3%nat, [8; 9]%nat)]].
Proof. eexists. split; vm_compute; reflexivity. Qed.
Print Assumptions C81_field_named_as_axis_refuted.

(** ** the base of the times *)
Local Open Scope Q_scope.
(** With dates that are the base plus the times, the base is found. *)
Theorem C81_base : forall B times dates, times <> [] -> Forall2 (fun t d => d == B + 1000000 * t) times dates ->
  (forall t0 t1 r, times = t0 :: t1 :: r -> ~ t0 == t1) ->
  exists b, base_of true times dates = Some b /\ b == B.
Proof.
  intros B times dates Hne HF Hd. destruct HF as [|t0 d0 ts ds E0 HF]; [contradiction|]. destruct HF as [|t1 d1 ts ds E1 HF].
  - eexists. split; [reflexivity|]. rewrite E0. ring.
  - eexists. split; [reflexivity|]. specialize (Hd t0 t1 ts eq_refl). rewrite E0, E1. field. intros E. apply Hd. Lqa.lra.
Qed.
Print Assumptions C81_base.
(** Refuted: a date column with another name, which the caller may choose, is not found. *)
Theorem C81_base_name_refuted : forall times dates, base_of false times dates = None.
Proof. reflexivity. Qed.
Print Assumptions C81_base_name_refuted.
Example C81_base_case : base_of true [5; 8] [7000000; 10000000] = Some (7000000 - 5 * ((10000000 - 7000000) / (8 - 5))) /\ 7000000 - 5 * ((10000000 - 7000000) / (8 - 5)) == 2000000.
Proof. split; reflexivity. Qed.

(** ** a case: two times, two axes, two fields *)
Definition ex_g (t a : nat) : grid nat := GR t [(1%nat, [11; 12]%nat); (2%nat, [5; 6; 7]%nat)] [(3%nat, map (Nat.add a) [1; 2; 3; 4; 5; 6]%nat); (4%nat, [9; 9; 9; 9; 9; 9]%nat)].
Example C81_case : series (g_crds (ex_g 1 0)) [3; 4]%nat [ex_g 1 0; ex_g 2 10].
Proof.
  unfold series, ex_g, prod_len. cbn. split; [discriminate|]. split; [repeat constructor; cbn; lia|]. split; [discriminate|]. split; [unfold TIME; repeat constructor; cbn; lia|].
  split; [intros c [<-|[<-|[]]]; (split; [discriminate|]); repeat constructor; cbn; lia|]. intros g [<-|[<-|[]]]; cbn; (split; [reflexivity|]); (split; [reflexivity|]); intros q [<-|[<-|[]]]; reflexivity.
Qed.
Example C81_case_run : match to_frame O [ex_g 1 0; ex_g 2 10] with Some fr => from_frame Nat.eqb O fr None | None => None end = Some [ex_g 1 0; ex_g 2 10].
Proof. vm_compute. reflexivity. Qed.
Example C81_rows_case : from_frame Nat.eqb O (FR [2; 3]%nat [(TIME, [7; 7]%nat); (1%nat, [11; 12]%nat); (3%nat, [8; 9]%nat)]) (Some [1%nat]) = None /\
  from_frame Nat.eqb O (FR [0; 1]%nat [(TIME, [7; 7]%nat); (1%nat, [11; 12]%nat); (3%nat, [8; 9]%nat)]) (Some [1%nat]) = Some [GR 7%nat [(1%nat, [11; 12]%nat)] [(3%nat, [8; 9]%nat)]].
Proof. split; vm_compute; reflexivity. Qed.
