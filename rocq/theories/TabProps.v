(** C86: tables of text are read as what was written into them. *)
From Verif Require Import TabModel.
From Coq Require Import String Ascii List Bool Arith ZArith QArith Lia Lqa ZifyBool ZifyNat.
Import ListNotations.
Local Open Scope nat_scope.

(** ** what Athena writes *)
(** The cells, the first axis fastest. *)
Fixpoint cells (dims : list nat) : list (list nat) :=
  match dims with [] => [[]] | n :: r => flat_map (fun rest => map (fun i => i :: rest) (seq 0 n)) (cells r) end.
(** In each row: the numbers of the zones, the place of the cell, the values of the fields there. *)
Fixpoint place (X : list (list Q)) (ix : list nat) : list Q := match X, ix with x :: X', i :: ix' => nth i x 0%Q :: place X' ix' | _, _ => [] end.
Definition row (X : list (list Q)) (zones : list nat -> list Q) (v : nat -> list nat -> Q) (nf : nat) (ix : list nat) : list Q :=
  (zones ix ++ place X ix ++ map (fun f => v f ix) (seq 0 nf))%list.
Definition written (X : list (list Q)) (zones : list nat -> list Q) (v : nat -> list nat -> Q) (nf : nat) : table := map (row X zones v nf) (cells (map (@length Q) X)).

(** ** places in the table *)
Fixpoint flat (dims ix : list nat) : nat := match dims, ix with n :: d, i :: r => i + n * flat d r | _, _ => 0 end.
Fixpoint prod (l : list nat) : nat := match l with [] => 1 | n :: r => n * prod r end.
Lemma fold_mul l : forall a, fold_left Nat.mul l a = a * prod l.
Proof. induction l as [|n l IH]; intros a; cbn [fold_left prod]; [lia|]. rewrite IH. lia. Qed.
Lemma product_prod l : product l = prod l.
Proof. unfold product. rewrite fold_mul. lia. Qed.
Lemma prod_app a b : prod (a ++ b) = prod a * prod b.
Proof. induction a as [|n a IH]; cbn [app prod]; [lia|]. rewrite IH. lia. Qed.
Lemma prod_rev l : prod (rev l) = prod l.
Proof. induction l as [|n l IH]; [reflexivity|]. cbn [rev]. rewrite prod_app, IH. cbn [prod]. lia. Qed.
Lemma rows_length {A} (f : A -> list (list nat)) n l : (forall x, length (f x) = n) -> length (flat_map f l) = n * length l.
Proof. intros H. induction l as [|x l IH]; cbn [flat_map length]; [lia|]. rewrite app_length, H, IH. lia. Qed.
Lemma cells_length dims : length (cells dims) = prod dims.
Proof. induction dims as [|n d IH]; [reflexivity|]. cbn [cells prod]. rewrite (rows_length _ n); [rewrite IH; reflexivity|]. intros x. rewrite map_length, seq_length. reflexivity. Qed.
Lemma nth_rows (f : list nat -> list (list nat)) n l dflt : (forall x, length (f x) = n) -> forall k i, i < n -> k < length l -> nth (i + n * k) (flat_map f l) dflt = nth i (f (nth k l [])) dflt.
Proof.
  intros H. induction l as [|x l IH]; intros k i Hi Hk; [cbn in Hk; lia|]. cbn [flat_map]. destruct k as [|k].
  - rewrite app_nth1 by (rewrite H; lia). cbn [nth]. f_equal. lia.
  - rewrite app_nth2 by (rewrite H; lia). rewrite H. replace (i + n * S k - n) with (i + n * k) by lia. cbn [nth]. apply IH; [exact Hi|cbn in Hk; lia].
Qed.
Lemma flat_lt dims : forall ix, Forall2 lt ix dims -> flat dims ix < prod dims.
Proof. induction dims as [|n d IH]; intros ix H; inversion H; subst; cbn [flat prod]; [lia|]. match goal with h : Forall2 lt _ d |- _ => specialize (IH _ h) end. nia. Qed.
Lemma cells_nth dims : forall ix, Forall2 lt ix dims -> nth (flat dims ix) (cells dims) [] = ix.
Proof.
  induction dims as [|n d IH]; intros ix H; inversion H as [|i n' r d' Hi Hr]; subst; [reflexivity|]. cbn [flat cells].
  rewrite nth_rows with (n := n); [|intros x; rewrite map_length, seq_length; reflexivity|exact Hi|rewrite cells_length; apply flat_lt; exact Hr].
  rewrite IH by exact Hr. rewrite (nth_indep _ [] (0 :: r)) by (rewrite map_length, seq_length; exact Hi). rewrite (map_nth (fun i => i :: r)), seq_nth by exact Hi. reflexivity.
Qed.
Lemma ravel_app a b x y : length a = length b -> ravel (a ++ [x]) (b ++ [y]) = ravel a b * x + y.
Proof.
  intros H. unfold ravel. assert (C : combine (a ++ [x]) (b ++ [y]) = (combine a b ++ [(x, y)])%list).
  { revert b H. induction a as [|p a IH]; intros [|q b] H; cbn in H; try lia; [reflexivity|]. cbn [app combine]. rewrite IH by lia. reflexivity. }
  rewrite C, fold_left_app. reflexivity.
Qed.
Lemma ravel_rev dims : forall ix, length ix = length dims -> ravel (rev dims) (rev ix) = flat dims ix.
Proof.
  induction dims as [|n d IH]; intros [|i r] H; cbn in H; try lia; [reflexivity|]. cbn [rev flat]. rewrite ravel_app by (rewrite !rev_length; lia). rewrite IH by lia. lia.
Qed.
Lemma Forall2_len {A B} (R : A -> B -> Prop) l m : Forall2 R l m -> length l = length m.
Proof. induction 1; cbn; lia. Qed.
Lemma place_length X : forall ix, length ix = length X -> length (place X ix) = length X.
Proof. induction X as [|x X IH]; intros [|i ix] H; cbn in *; try lia. rewrite IH; lia. Qed.
Lemma place_nth X : forall ix a, length ix = length X -> a < length X -> nth a (place X ix) 0%Q = nth (nth a ix 0) (nth a X []) 0%Q.
Proof. induction X as [|x X IH]; intros [|i ix] a H Ha; cbn in H, Ha; try lia. cbn [place]. destruct a as [|a]; [reflexivity|]. cbn [nth]. apply IH; lia. Qed.
Lemma column_nth c (rows : table) k : k < length rows -> nth k (column c rows) 0%Q = nth c (nth k rows []) 0%Q.
Proof. intros H. unfold column. rewrite (nth_indep _ 0%Q ((fun r => nth c r 0%Q) [])) by (rewrite map_length; exact H). rewrite (map_nth (fun r => nth c r 0%Q)). reflexivity. Qed.
Lemma written_nth X zones v nf ix : Forall2 lt ix (map (@length Q) X) -> nth (flat (map (@length Q) X) ix) (written X zones v nf) [] = row X zones v nf ix.
Proof.
  intros H. unfold written. pose proof (flat_lt _ _ H) as L. rewrite <- cells_length in L.
  rewrite (nth_indep _ [] (row X zones v nf [])) by (rewrite map_length; exact L). rewrite map_nth, cells_nth by exact H. reflexivity.
Qed.
(** Every field has at every cell the number that was written for it. *)
Theorem C86_fields : forall X zones v nf f ix, (forall i, length (zones i) = length X) -> f < nf -> Forall2 lt ix (map (@length Q) X) ->
  field_at (map (@length Q) X) (written X zones v nf) f ix = Some (v f ix).
Proof.
  intros X zones v nf f ix Hz Hf Hi. unfold field_at. pose proof (Forall2_len _ _ _ Hi) as Li. rewrite map_length in Li.
  unfold column at 1. rewrite map_length. unfold written at 1. rewrite map_length, cells_length, product_prod, prod_rev, Nat.eqb_refl. rewrite rev_length, map_length. f_equal.
  rewrite ravel_rev by (rewrite map_length; exact Li). rewrite column_nth by (unfold written; rewrite map_length, cells_length; apply flat_lt; exact Hi).
  rewrite written_nth by exact Hi. unfold row. rewrite app_nth2 by (rewrite Hz; lia). rewrite Hz, app_nth2 by (rewrite place_length by exact Li; lia). rewrite place_length by exact Li.
  replace (2 * length X + f - length X - length X) with f by lia. rewrite (nth_indep _ 0%Q ((fun f => v f ix) 0)) by (rewrite map_length, seq_length; exact Hf). rewrite (map_nth (fun f => v f ix)), seq_nth by exact Hf. reflexivity.
Qed.
Print Assumptions C86_fields.

(** ** coordinates *)
(** The nodes of cells with the centres [c]: between the centres half way, beyond the ends by half of the last step. *)
Definition node_of (c x : list Q) : Prop := exists n, length c = S (S n) /\ length x = S (length c) /\
  (nth 0 x 0 == nth 0 c 0 - (nth 1 c 0 - nth 0 c 0) / 2)%Q /\ (nth (S (S n)) x 0 == nth (S n) c 0 + (nth (S n) c 0 - nth n c 0) / 2)%Q /\
  forall i, i <= n -> (nth (S i) x 0 == (nth i c 0 + nth (S i) c 0) / 2)%Q.
Lemma nodes_ok c : 2 <= length c -> node_of c (nodes c).
Proof.
  intros H. exists (length c - 2). set (f := fun i => ((1 # 2) * (nth (S i) c 0 - nth i c 0))%Q).
  assert (Hd : forall i, i < length c - 1 -> nth i (map f (seq 0 (length c - 1))) 0%Q = f i) by (intros i Hi; rewrite (nth_indep _ 0%Q (f 0)) by (rewrite map_length, seq_length; exact Hi); rewrite (map_nth f), seq_nth by exact Hi; reflexivity).
  unfold nodes. fold f. set (hd := map f (seq 0 (length c - 1))) in *. set (g := fun i => (nth i c 0 + nth i hd 0)%Q).
  assert (Lg : length (map g (seq 0 (length c - 1))) = length c - 1) by (rewrite map_length, seq_length; reflexivity).
  split; [lia|]. split; [cbn [length]; rewrite app_length, Lg; cbn [length]; lia|]. split; [cbn [nth]; rewrite Hd by lia; unfold f; field|]. split.
  - cbn [nth]. rewrite app_nth2 by lia. rewrite Lg. replace (S (length c - 2) - (length c - 1)) with 0 by lia. cbn [nth]. rewrite Hd by lia. unfold f. replace (length c - 1) with (S (length c - 2)) by lia. field.
  - intros i Hi. cbn [nth]. rewrite app_nth1 by lia. rewrite (nth_indep _ 0%Q (g 0)) by lia. rewrite (map_nth g), seq_nth by lia. unfold g. cbn [Nat.add]. rewrite Hd by lia. unfold f. field.
Qed.
Lemma unit_lt dims : forall a k, a < length dims -> k < nth a dims 0 -> Forall (fun n => 0 < n) dims -> Forall2 lt (repeat 0 a ++ k :: repeat 0 (length dims - S a)) dims.
Proof.
  induction dims as [|n d IH]; intros a k Ha Hk Hp; [cbn in Ha; lia|]. inversion Hp; subst. destruct a as [|a].
  - cbn [repeat app length]. cbn [nth] in Hk. constructor; [exact Hk|]. replace (S (length d) - 1) with (length d) by lia. match goal with h : Forall _ d |- _ => revert h end. clear. induction d as [|m d IH]; intros Hd; [constructor|]. inversion Hd; subst. cbn [length repeat]. constructor; auto.
  - cbn [repeat app length nth] in *. constructor; [assumption|]. replace (S (length d) - S (S a)) with (length d - S a) by lia. apply IH; [lia|exact Hk|assumption].
Qed.
Lemma flat_zero d : forall m, flat d (repeat 0 m) = 0.
Proof. induction d as [|n d IH]; intros [|m]; try reflexivity. cbn [repeat flat]. rewrite IH. lia. Qed.
Lemma flat_unit dims : forall a k m, a < length dims -> flat dims (repeat 0 a ++ k :: repeat 0 m) = k * prod (firstn a dims).
Proof.
  induction dims as [|n d IH]; intros a k m Ha; [cbn in Ha; lia|]. destruct a as [|a].
  - cbn [repeat app flat firstn prod]. rewrite flat_zero. lia.
  - cbn [repeat app flat firstn prod length] in *. rewrite IH by lia. lia.
Qed.
Lemma prod_pos l : Forall (fun n => 0 < n) l -> 0 < prod l.
Proof. induction 1; cbn [prod]; [lia|nia]. Qed.
Lemma firstn_pos (l : list nat) : forall k, Forall (fun n => 0 < n) l -> Forall (fun n => 0 < n) (firstn k l).
Proof. induction l as [|x l IH]; intros [|k] H; cbn [firstn]; try constructor; inversion H; subst; auto. Qed.
Lemma firstn_S (l : list nat) : forall a, a < length l -> firstn (S a) l = (firstn a l ++ [nth a l 0])%list.
Proof. induction l as [|x l IH]; intros a H; [cbn in H; lia|]. destruct a as [|a]; [reflexivity|]. cbn [length] in H. change (firstn (S (S a)) (x :: l)) with (x :: firstn (S a) l). rewrite IH by lia. reflexivity. Qed.
Lemma prod_firstn_le l a : Forall (fun n => 0 < n) l -> prod (firstn a l) <= prod l.
Proof. intros H. rewrite <- (firstn_skipn a l) at 2. rewrite prod_app. assert (0 < prod (skipn a l)). { apply prod_pos. rewrite <- (firstn_skipn a l) in H. apply Forall_app in H. apply H. } nia. Qed.
Lemma list_ext (l m : list Q) : length l = length m -> (forall i, i < length l -> nth i l 0%Q = nth i m 0%Q) -> l = m.
Proof. intros H E. apply (nth_ext _ _ 0%Q 0%Q); assumption. Qed.
Lemma strided_written X zones v nf a : (forall i, length (zones i) = length X) -> a < length X -> Forall (fun x => 0 < length x) X -> let dims := map (@length Q) X in
  strided (product (firstn (S a) dims)) (product (firstn a dims)) (column (length dims + a) (written X zones v nf)) = Some (nth a X []).
Proof.
  intros Hz Ha Hp dims. assert (Hd : Forall (fun n => 0 < n) dims) by (unfold dims; apply Forall_forall; intros n Hn; apply in_map_iff in Hn as (x & <- & Hx); rewrite Forall_forall in Hp; apply Hp; exact Hx).
  assert (Ld : length dims = length X) by apply map_length. assert (Na : nth a dims 0 = length (nth a X [])) by (unfold dims; change 0 with (@length Q []) at 1; apply map_nth).
  rewrite !product_prod. rewrite firstn_S by lia. rewrite prod_app. cbn [prod]. rewrite Nat.mul_1_r. set (step := prod (firstn a dims)). assert (Sp : 0 < step) by (apply prod_pos, firstn_pos, Hd).
  unfold strided. destruct (Nat.eqb_spec step 0) as [Z|_]; [lia|]. f_equal. assert (Lc : length (column (length dims + a) (written X zones v nf)) = prod dims) by (unfold column, written; rewrite !map_length; apply cells_length). rewrite Lc.
  assert (Le : step * nth a dims 0 <= prod dims). { pose proof (prod_firstn_le dims (S a) Hd) as P. rewrite firstn_S, prod_app in P by lia. cbn [prod] in P. fold step in P. lia. }
  rewrite Nat.min_l by exact Le. assert (Cn : (step * nth a dims 0 + step - 1) / step = nth a dims 0). { symmetry. apply (Nat.div_unique _ _ _ (step - 1)); lia. } rewrite Cn, Na.
  apply list_ext; [rewrite map_length, seq_length; reflexivity|]. rewrite map_length, seq_length. intros k Hk.
  set (h := fun k => nth (k * step) (column (length dims + a) (written X zones v nf)) 0%Q). rewrite (nth_indep _ 0%Q (h 0)) by (rewrite map_length, seq_length; exact Hk). rewrite (map_nth h), seq_nth by exact Hk. unfold h. cbn [Nat.add].
  set (ix := (repeat 0 a ++ k :: repeat 0 (length dims - S a))%list). assert (I : Forall2 lt ix dims) by (apply unit_lt; [lia|lia|exact Hd]).
  pose proof (flat_unit dims a k (length dims - S a) ltac:(lia)) as F. fold ix step in F. pose proof (flat_lt _ _ I) as Fl. pose proof (Forall2_len _ _ _ I) as Li.
  rewrite column_nth by (unfold written; rewrite map_length, cells_length; change (map (@length Q) X) with dims; lia). rewrite <- F. unfold dims. rewrite written_nth by exact I. unfold row.
  rewrite app_nth2 by (rewrite Hz, map_length; lia). rewrite Hz, map_length. replace (length X + a - length X) with a by lia. rewrite app_nth1 by (rewrite place_length by lia; exact Ha).
  rewrite place_nth by (try exact Ha; lia). f_equal. unfold ix. rewrite app_nth2 by (rewrite repeat_length; lia). rewrite repeat_length, Nat.sub_diag. reflexivity.
Qed.
Lemma all_some_map {A B} (f : A -> option B) (g : A -> B) l : (forall x, In x l -> f x = Some (g x)) -> all_some (map f l) = Some (map g l).
Proof. induction l as [|x l IH]; intros H; [reflexivity|]. cbn [map all_some]. rewrite (H x (or_introl eq_refl)), IH by (intros y Hy; apply H; now right). reflexivity. Qed.
Lemma map_nth_seq (X : list (list Q)) : map (fun a => nth a X []) (seq 0 (length X)) = X.
Proof. apply (nth_ext _ _ [] []); [rewrite map_length, seq_length; reflexivity|]. rewrite map_length, seq_length. intros n Hn. set (f := fun a => nth a X []). rewrite (nth_indep _ [] (f 0)) by (rewrite map_length, seq_length; exact Hn). rewrite (map_nth f), seq_nth by exact Hn. reflexivity. Qed.
(** The axes are found from the table alone: up to three, each of two cells or more. *)
Theorem C86_axes : forall X zones v nf, (forall i, length (zones i) = length X) -> length X <= 3 -> Forall (fun x => 2 <= length x) X ->
  exists N, read_crds (map (@length Q) X) (written X zones v nf) = Some N /\ Forall2 node_of X N.
Proof.
  intros X zones v nf Hz H3 H2. exists (map nodes X). assert (Hp : Forall (fun x : list Q => 0 < length x) X) by (eapply Forall_impl; [|exact H2]; intros x; cbn; lia). split.
  - unfold read_crds. rewrite map_length, Nat.min_r by lia. rewrite (all_some_map _ (fun a => nth a X [])); [rewrite map_nth_seq; reflexivity|]. intros a Ha. apply in_seq in Ha. unfold axis_centres.
    rewrite (strided_written X zones v nf a Hz ltac:(lia) Hp). assert (L : 2 <= length (nth a X [])) by (rewrite Forall_forall in H2; apply H2, nth_In; lia). destruct (Nat.ltb_spec (length (nth a X [])) 2); [lia|].
    change 0 with (@length Q []) at 1. rewrite map_nth, Nat.eqb_refl. reflexivity.
  - clear Hz H3 Hp. induction H2 as [|x X Hx _ IH]; cbn [map]; constructor; [apply nodes_ok; exact Hx|exact IH].
Qed.
Print Assumptions C86_axes.
(** Refuted: with an axis of one cell nothing is read, although the code has a branch for it. *)
Theorem C86_single_cell_refuted : forall X zones v nf a, (forall i, length (zones i) = length X) -> length X <= 3 -> Forall (fun x => 0 < length x) X -> a < length X -> length (nth a X []) = 1 ->
  read_crds (map (@length Q) X) (written X zones v nf) = None.
Proof.
  intros X zones v nf a Hz H3 Hp Ha H1. unfold read_crds. rewrite map_length, Nat.min_r by lia.
  assert (E : axis_centres (map (@length Q) X) (written X zones v nf) a = None) by (unfold axis_centres; rewrite (strided_written X zones v nf a Hz Ha Hp), H1; reflexivity).
  assert (N : forall l, In a l -> all_some (map (axis_centres (map (@length Q) X) (written X zones v nf)) l) = None).
  { induction l as [|b l IH]; intros I; [destruct I|]. cbn [map all_some]. destruct I as [->|I]; [rewrite E; reflexivity|]. rewrite (IH I). destruct (axis_centres _ _ b); reflexivity. }
  rewrite N; [reflexivity|]. apply in_seq. lia.
Qed.
Print Assumptions C86_single_cell_refuted.
(** The middle of a cell of the loaded grid is the centre in the table at the ends, and elsewhere just where the two steps around it are equal. *)
Theorem C86_centres : forall c x, node_of c x -> (forall i, i < length c -> (i = 0 \/ S i = length c) -> ((nth i x 0 + nth (S i) x 0) / 2 == nth i c 0)%Q) /\
  forall i, S (S i) < length c -> ((nth (S i) x 0 + nth (S (S i)) x 0) / 2 == nth (S i) c 0 <-> nth (S i) c 0 - nth i c 0 == nth (S (S i)) c 0 - nth (S i) c 0)%Q.
Proof.
  intros c x (n & Hc & Hx & H0 & Hn & Hi). assert (Hf : forall q : Q, (q / 2 == (1 # 2) * q)%Q) by (intros q; field). split.
  - intros i Hl [-> | E].
    + pose proof (Hi 0 ltac:(lia)) as H1. rewrite Hf in *. Lqa.lra.
    + assert (i = S n) as -> by lia. pose proof (Hi n ltac:(lia)) as H1. rewrite Hf in *. Lqa.lra.
  - intros i Hl. pose proof (Hi i ltac:(lia)) as A. pose proof (Hi (S i) ltac:(lia)) as B. rewrite A, B, !Hf. split; intros E; Lqa.lra.
Qed.
Print Assumptions C86_centres.

(** ** time *)
Definition char_of (d : nat) : ascii := ascii_of_nat (48 + d).
Definition text (l : list nat) : list ascii := map char_of l.
Fixpoint value (l : list nat) : nat := match l with [] => 0 | d :: r => d * 10 ^ length r + value r end.
(** blanks, =, blanks, digits, a dot, digits, and then anything that is no digit and no dot *)
Definition time_line (s1 s2 : nat) (num rest : list ascii) : list ascii := (repeat " "%char s1 ++ "="%char :: repeat " "%char s2 ++ num ++ rest)%list.
Definition decimal (a b : list nat) : list ascii := (text a ++ "."%char :: text b)%list.
Definition number (a b : list nat) : Q := (inject_Z (Z.of_nat (value a)) + inject_Z (Z.of_nat (value b)) / inject_Z (10 ^ Z.of_nat (length b)))%Q.
Definition stops (rest : list ascii) : Prop := match rest with [] => True | c :: _ => is_digit c = false /\ c <> "."%char end.
Lemma code_char d : d < 10 -> code (char_of d) = 48 + d.
Proof. intros H. unfold code, char_of. apply nat_ascii_embedding. lia. Qed.
Lemma digit_char d : d < 10 -> is_digit (char_of d) = true.
Proof. intros H. unfold is_digit. rewrite code_char by exact H. lia. Qed.
Lemma text_digits l : Forall (fun d => d < 10) l -> forallb is_digit (text l) = true.
Proof. induction 1 as [|d l H _ IH]; [reflexivity|]. cbn [text map forallb]. rewrite digit_char by exact H. exact IH. Qed.
Lemma take_all p l rest : forallb p l = true -> take p (l ++ rest) = (l ++ take p rest)%list /\ skip p (l ++ rest) = skip p rest.
Proof. induction l as [|c l IH]; intros H; [split; reflexivity|]. cbn [forallb] in H. apply andb_prop in H as (H1 & H2). cbn [app take skip]. rewrite H1. destruct (IH H2) as (-> & ->). split; reflexivity. Qed.
Lemma skip_blanks n rest : skip is_space (repeat " "%char n ++ rest) = skip is_space rest.
Proof. induction n as [|n IH]; [reflexivity|]. cbn [repeat app skip]. exact IH. Qed.
Lemma whole_value l : Forall (fun d => d < 10) l -> whole (text l) = value l.
Proof.
  intros H. unfold whole. assert (G : forall a, fold_left (fun a c => 10 * a + (code c - 48)) (text l) a = a * 10 ^ length l + value l).
  { induction H as [|d l Hd _ IH]; intros a; [cbn; lia|]. cbn [text map fold_left value length]. change (map char_of l) with (text l). rewrite IH, code_char by exact Hd. rewrite Nat.pow_succ_r'. replace (48 + d - 48) with d by lia. lia. }
  rewrite G. lia.
Qed.
Lemma take_stops p rest : (match rest with [] => True | c :: _ => p c = false end) -> take p rest = [] /\ skip p rest = rest.
Proof. destruct rest as [|c r]; intros H; [split; reflexivity|]. cbn [take skip]. rewrite H. split; reflexivity. Qed.
(** A time in decimal notation is read as that number, whatever comes after it on the line. *)
Theorem C86_time : forall s1 s2 a b rest ls, Forall (fun d => d < 10) a -> Forall (fun d => d < 10) b -> a <> [] -> stops rest -> (forall l, In l ls -> match l with HTime _ => False | _ => True end) ->
  match parse_header (HTime (time_line s1 s2 (decimal a b) rest) :: ls) with Some (t, _, _) => (t == number a b)%Q | None => False end.
Proof.
  intros s1 s2 a b rest ls Ha Hb Na Hr Hl. unfold parse_header. cbn [header].
  assert (T : time_text (time_line s1 s2 (decimal a b) rest) = Some (decimal a b)).
  { unfold time_text, time_line. rewrite skip_blanks. change (skip is_space ("="%char :: repeat " "%char s2 ++ decimal a b ++ rest)) with ("="%char :: repeat " "%char s2 ++ decimal a b ++ rest)%list. change (code "="%char =? 61) with true. cbv iota. rewrite skip_blanks.
    set (p := fun c => is_digit c || is_dot c). assert (P : forallb p (decimal a b) = true).
    { unfold decimal. rewrite forallb_app. cbn [forallb]. assert (Q : forall l, Forall (fun d => d < 10) l -> forallb p (text l) = true) by (intros l Hq; apply forallb_forall; intros c Hc; unfold p; rewrite (proj1 (forallb_forall _ _) (text_digits l Hq) c Hc); reflexivity). rewrite !Q by assumption. reflexivity. }
    assert (S : skip is_space (decimal a b ++ rest) = (decimal a b ++ rest)%list).
    { destruct a as [|d a]; [contradiction|]. unfold decimal. cbn [text map app skip]. inversion Ha; subst. unfold is_space. rewrite code_char by assumption. replace (48 + d =? 32) with false by lia. reflexivity. }
    rewrite S. destruct (take_all p (decimal a b) rest P) as (-> & _). destruct (take_stops p rest) as (-> & _).
    { destruct rest as [|c r]; [exact I|]. destruct Hr as (R1 & R2). unfold p. rewrite R1. unfold is_dot. cbn [orb]. apply Nat.eqb_neq. intros E. apply R2. apply (f_equal ascii_of_nat) in E. unfold code in E. rewrite ascii_nat_embedding in E. exact E. }
    rewrite app_nil_r. unfold decimal. destruct (text a); reflexivity. }
  rewrite T. assert (K : forall ls t d n, (forall l, In l ls -> match l with HTime _ => False | _ => True end) -> exists d' n', header ls t d n = Some (t, d', n')).
  { clear. induction ls as [|l ls IH]; intros t d n H; [exists d, n; reflexivity|]. pose proof (H l (or_introl eq_refl)) as H1. assert (H2 : forall x, In x ls -> match x with HTime _ => False | _ => True end) by (intros x Hx; apply H; now right). destruct l; cbn [header]; [apply IH; exact H2|contradiction|apply IH; exact H2|apply IH; exact H2]. }
  destruct (K ls (decimal a b) [] [] Hl) as (d' & n' & ->). unfold to_float, decimal.
  destruct (take_all is_digit (text a) ("."%char :: text b) (text_digits a Ha)) as (E1 & E2). rewrite E1, E2. change (take is_digit ("."%char :: text b)) with (@nil ascii). change (skip is_digit ("."%char :: text b)) with ("."%char :: text b)%list.
  rewrite app_nil_r, (text_digits b Hb). assert (M : negb (match text a, text b with [], [] => true | _, _ => false end) = true) by (destruct a; [contradiction|]; reflexivity). rewrite M. cbn [andb].
  rewrite !whole_value by assumption. unfold text. rewrite map_length. unfold number. reflexivity.
Qed.
Print Assumptions C86_time.
(** Refuted: of a time with an exponent, as the program writes small and large ones, the exponent is lost: 1.5e-05 is read as 1.5. *)
Theorem C86_exponent_refuted : forall a b e tail, Forall (fun d => d < 10) a -> Forall (fun d => d < 10) b -> a <> [] ->
  match parse_header [HTime (time_line 0 1 (decimal a b) ("e"%char :: "-"%char :: text e ++ tail))] with Some (t, _, _) => (t == number a b)%Q /\ ((0 < value e)%nat -> ~ number a b == 0 -> ~ t == number a b / inject_Z (10 ^ Z.of_nat (value e)))%Q | None => False end.
Proof.
  intros a b e tail Ha Hb Na. pose proof (C86_time 0 1 a b ("e"%char :: "-"%char :: text e ++ tail) [] Ha Hb Na) as H. specialize (H ltac:(split; [reflexivity|discriminate]) ltac:(intros l [])).
  destruct (parse_header _) as [((t & d) & n)|]; [|exact H]. split; [exact H|]. intros He Hn E. rewrite H in E.
  assert (P : (1 < 10 ^ Z.of_nat (value e))%Z) by (apply Z.pow_gt_1; lia). assert (R : (1 < inject_Z (10 ^ Z.of_nat (value e)))%Q) by (change 1%Q with (inject_Z 1); rewrite <- Zlt_Qlt; exact P).
  apply Hn. set (q := inject_Z (10 ^ Z.of_nat (value e))) in *. assert (M : (number a b * q == number a b)%Q) by (rewrite E at 1; field; Lqa.lra). assert (Z0 : (number a b * (q - 1) == 0)%Q) by (Lqa.lra). apply Qmult_integral in Z0 as [Z0|Z0]; [exact Z0|Lqa.lra].
Qed.
Print Assumptions C86_exponent_refuted.
(** The dims and the names of the fields: what the header says, without the names of the columns of zones and places. *)
Definition said_dims (ls : list header_line) : list nat := flat_map (fun l => match l with HDim n => [n] | _ => [] end) ls.
Theorem C86_names : forall before after zn pn names t dims got, (forall l, In l (before ++ after) -> match l with HNames _ => False | _ => True end) ->
  length zn = length (said_dims (before ++ after)) -> length pn = length zn -> parse_header (before ++ HNames (zn ++ pn ++ names) :: after) = Some (t, dims, got) -> dims = said_dims (before ++ after) /\ got = names.
Proof.
  intros before after zn pn names t dims got Hl Hz Hp. unfold parse_header.
  assert (K : forall ls t d n t' d' n', header ls t d n = Some (t', d', n') -> d' = (d ++ said_dims ls)%list /\ ((forall l, In l ls -> match l with HNames _ => False | _ => True end) -> n' = n)).
  { clear. induction ls as [|l ls IH]; intros t d n t' d' n' H.
    - cbn [header] in H. injection H as <- <- <-. unfold said_dims. cbn [flat_map]. rewrite app_nil_r. auto.
    - destruct l as [m|s|w|]; cbn [header] in H.
      + destruct (IH _ _ _ _ _ _ H) as (D & N). split; [rewrite D, <- app_assoc; reflexivity|]. intros Q. apply N. intros x Hx. apply Q. now right.
      + destruct (time_text s); [|discriminate]. destruct (IH _ _ _ _ _ _ H) as (D & N). split; [exact D|]. intros Q. apply N. intros x Hx. apply Q. now right.
      + destruct (IH _ _ _ _ _ _ H) as (D & N). split; [exact D|]. intros Q. destruct (Q _ (or_introl eq_refl)).
      + destruct (IH _ _ _ _ _ _ H) as (D & N). split; [exact D|]. intros Q. apply N. intros x Hx. apply Q. now right. }
  assert (S : forall ls t d n, header (ls ++ HNames (zn ++ pn ++ names) :: after) t d n = match header ls t d n with Some (t', d', _) => header after t' d' (zn ++ pn ++ names) | None => None end).
  { clear. induction ls as [|l ls IH]; intros t d n; [reflexivity|]. destruct l as [m|s|w|]; cbn [app header]; try apply IH. destruct (time_text s); [apply IH|reflexivity]. }
  rewrite S. destruct (header before (list_ascii_of_string "0.0") [] []) as [((t1 & d1) & n1)|] eqn:E1; [|discriminate]. destruct (K _ _ _ _ _ _ _ E1) as (D1 & _). cbn [app] in D1.
  destruct (header after t1 d1 (zn ++ pn ++ names)) as [((t2 & d2) & n2)|] eqn:E2; [|discriminate]. destruct (K _ _ _ _ _ _ _ E2) as (D2 & N2).
  assert (N : n2 = (zn ++ pn ++ names)%list) by (apply N2; intros l I; apply Hl; apply in_or_app; now right). destruct (to_float t2) as [q|]; [|discriminate]. intros H. assert (G : got = skipn (2 * length d2) n2 /\ dims = d2) by (split; congruence). destruct G as (-> & ->).
  assert (DD : d2 = said_dims (before ++ after)) by (rewrite D2, D1; unfold said_dims; rewrite flat_map_app; reflexivity). split; [exact DD|].
  rewrite N, DD, <- Hz. rewrite app_assoc. assert (LL : 2 * length zn = length (zn ++ pn)) by (rewrite app_length; lia). rewrite LL. clear. induction (zn ++ pn)%list as [|z l IH]; [reflexivity|exact IH].
Qed.
Print Assumptions C86_names.
Definition case_table := written [[1; 2; 4]; [10; 20]]%Q (fun ix => map (fun i => inject_Z (Z.of_nat (i + 4))) ix) (fun f ix => inject_Z (Z.of_nat (100 * f + 10 * nth 0 ix 0 + nth 1 ix 0))) 2.
Example C86_case : case_table = [[4; 4; 1; 10; 0; 100]; [5; 4; 2; 10; 10; 110]; [6; 4; 4; 10; 20; 120]; [4; 5; 1; 20; 1; 101]; [5; 5; 2; 20; 11; 111]; [6; 5; 4; 20; 21; 121]]%Q /\
  field_at [3; 2] case_table 1 [2; 1] = Some 121%Q /\ match read_crds [3; 2] case_table with Some N => Forall2 (Forall2 Qeq) N [[1 # 2; 3 # 2; 3; 5]; [5; 15; 25]]%Q | None => False end.
Proof. split; [reflexivity|]. split; [reflexivity|]. vm_compute. repeat constructor. Qed.
Example C86_header_case : parse_header [HDim 64; HOther; HDim 32; HTime (list_ascii_of_string "= 0.155957, level= 0"); HNames ["i-zone"; "j-zone"; "x1"; "x2"; "d"; "M1"]%string] = Some ((0 + (155957 # 1) / (1000000 # 1))%Q, [64; 32], ["d"; "M1"]%string).
Proof. vm_compute. reflexivity. Qed.

(** ** tables of columns *)
Definition rectangular (w : nat) (rows : table) : Prop := Forall (fun r => length r = w) rows.
Lemma loadtxt_2d w rows : rectangular w rows -> 2 <= w -> 2 <= length rows -> loadtxt rows = A2 rows.
Proof.
  intros R Hw Hl. destruct rows as [|r1 [|r2 rows]]; cbn in Hl; try lia. inversion R as [|? ? H1 _]; subst. unfold loadtxt. cbn [forallb]. replace (length r1 =? 1) with false by lia. destruct r1 as [|x [|y r1]]; cbn in Hw; try lia. reflexivity.
Qed.
(** A text file with two rows and columns or more: the first column is the axis, field number i is column i. *)
Theorem C86_ascii : forall w rows, rectangular w rows -> 2 <= w -> 2 <= length rows -> exists x fs, read_ascii rows = Some (x, fs) /\ map fst fs = seq 1 (w - 1) /\
  length x = length rows /\ (forall k, k < length rows -> nth k x 0%Q = nth 0 (nth k rows []) 0%Q) /\
  forall i d, In (i, d) fs -> length d = length rows /\ forall k, k < length rows -> nth k d 0%Q = nth i (nth k rows []) 0%Q.
Proof.
  intros w rows R Hw Hl. unfold read_ascii. rewrite (loadtxt_2d w) by assumption. assert (W : width rows = w) by (unfold width; destruct rows as [|r rows]; cbn in Hl; [lia|]; inversion R; subst; reflexivity). rewrite W.
  eexists _, _. split; [reflexivity|]. split; [rewrite map_map; cbn [fst]; apply map_id|]. split; [apply map_length|]. split; [intros k Hk; apply column_nth; exact Hk|].
  intros i d I. apply in_map_iff in I as (j & E & _). injection E as -> <-. split; [apply map_length|]. intros k Hk. apply column_nth. exact Hk.
Qed.
Print Assumptions C86_ascii.
(** Refuted: a file of one row, or of one column, cannot be read. *)
Theorem C86_ascii_thin_refuted : forall w rows, rectangular w rows -> 1 <= length rows -> 1 <= w -> w = 1 \/ length rows = 1 -> read_ascii rows = None.
Proof.
  intros w rows R Hl Hw H. destruct rows as [|r1 rows]; [cbn in Hl; lia|]. inversion R as [|? ? H1 R']; subst. destruct rows as [|r2 rows].
  - unfold read_ascii, loadtxt. destruct r1 as [|x [|y r1]]; reflexivity.
  - destruct H as [H|H]; [|cbn in H; lia]. unfold read_ascii, loadtxt. replace (forallb (fun r => length r =? 1) (r1 :: r2 :: rows)) with true; [destruct r1 as [|x [|y r]]; reflexivity|].
    symmetry. apply forallb_forall. intros r Hr. apply Nat.eqb_eq. unfold rectangular in R. rewrite Forall_forall in R. rewrite (R r Hr). exact H.
Qed.
Print Assumptions C86_ascii_thin_refuted.
(** A history file of Athena: the first column is the time, each other name of the header has its column. *)
Theorem C86_history : forall names rows, rectangular (length names) rows -> 2 <= length names -> 2 <= length rows -> exists t fs, read_hst names rows = Some (t, fs) /\ map fst fs = tl names /\
  (forall k, k < length rows -> nth k t 0%Q = nth 0 (nth k rows []) 0%Q) /\
  forall i k, S i < length names -> k < length rows -> nth k (snd (nth i fs (""%string, []))) 0%Q = nth (S i) (nth k rows []) 0%Q.
Proof.
  intros names rows R Hw Hl. unfold read_hst. rewrite (loadtxt_2d (length names)) by assumption. assert (W : width rows = length names) by (unfold width; destruct rows as [|r rows]; cbn in Hl; [lia|]; inversion R; assumption). rewrite W, Nat.leb_refl.
  eexists _, _. split; [reflexivity|]. split; [|split; [intros k Hk; apply column_nth; exact Hk|]].
  - rewrite map_map. cbn [fst]. destruct names as [|n0 names]; [cbn in Hw; lia|]. cbn [length tl]. rewrite <- seq_shift. replace (S (length names) - 1) with (length names) by lia. rewrite map_map. cbn [nth]. clear. induction names as [|n names IH]; [reflexivity|]. cbn [length seq map nth]. f_equal. rewrite <- seq_shift, map_map. exact IH.
  - intros i k Hi Hk. set (f := fun i => (nth i names ""%string, column i rows)). rewrite (nth_indep _ _ (f 0)) by (rewrite map_length, seq_length; lia). rewrite (map_nth f), seq_nth by lia. unfold f. cbn [snd Nat.add]. apply column_nth. exact Hk.
Qed.
Print Assumptions C86_history.
Example C86_history_case : read_hst ["time"; "dt"; "mass"]%string [[0; 1; 5]; [1; 1; 7]]%Q = Some ([0; 1]%Q, [("dt"%string, [1; 1]%Q); ("mass"%string, [5; 7]%Q)]) /\ read_ascii [[0; 1; 5]; [1; 1; 7]]%Q = Some ([0; 1]%Q, [(1, [1; 1]%Q); (2, [5; 7]%Q)]).
Proof. split; reflexivity. Qed.
