(** C99: colours given as text. *)
From Coq Require Import List Bool Arith Lia ZifyBool ZifyNat.
From Verif Require Import HexModel.
Import ListNotations.

(** ** Specification *)
(** #rgb, #rgba, #rrggbb, #rrggbbaa or a name, as red, green, blue and alpha from 0 to 255; alpha is 255 if it is not given *)
Inductive means : text -> list nat -> Prop :=
| m_rgb r g b : means (Hex [r; g; b]) [17 * r; 17 * g; 17 * b; 255]
| m_rgba r g b a : means (Hex [r; g; b; a]) [17 * r; 17 * g; 17 * b; 17 * a]
| m_rrggbb r r' g g' b b' : means (Hex [r; r'; g; g'; b; b']) [16 * r + r'; 16 * g + g'; 16 * b + b'; 255]
| m_rrggbbaa r r' g g' b b' a a' : means (Hex [r; r'; g; g'; b; b'; a; a']) [16 * r + r'; 16 * g + g'; 16 * b + b'; 16 * a + a']
| m_name r g b a : means (Name [r; g; b; a]) [r; g; b; a].
Definition has_alpha (t : text) : Prop := match t with Hex ds => length ds = 4 \/ length ds = 8 | Name _ => True end.
(** colours without alpha if no text has one *)
Definition shown (ts : list text) (t : text) (c : list nat) : Prop :=
  exists full, means t full /\ ((Exists has_alpha ts /\ c = full) \/ (~ Exists has_alpha ts /\ c = firstn 3 full)).
(** the text for each point: one for all, one for each line, or one for each point *)
Inductive chosen (npts : list nat) (ts : list text) : list text -> Prop :=
| one_for_all t : ts = [t] -> chosen npts ts (repeat t (list_sum npts))
| one_for_each_line : length ts = length npts -> length ts <> 1 -> chosen npts ts (concat (map (fun tn => repeat (fst tn) (snd tn)) (combine ts npts)))
| one_for_each_point : length ts = list_sum npts -> length ts <> length npts -> length ts <> 1 -> chosen npts ts ts.

(** ** Lemmas *)
Lemma spread_map {A B} (f : A -> B) npts l : spread npts (map f l) = match spread npts l with Ok r => Ok (map f r) | Raise e => Raise e end.
Proof.
  assert (R : forall x n, map f (repeat x n) = repeat (f x) n) by (intros x n; induction n; cbn; congruence).
  assert (Fm : forall l, flat_map (fun x => repeat x (list_sum npts)) (map f l) = map f (flat_map (fun x => repeat x (list_sum npts)) l)) by (induction l0 as [|z l0 IH]; cbn [map flat_map]; [reflexivity|]; rewrite map_app, R, IH; reflexivity).
  unfold spread. rewrite map_length, !Fm. destruct (length l =? 1); [reflexivity|]. destruct (length l =? length npts).
  - f_equal. clear Fm. revert npts. induction l as [|z l IH]; intros [|n npts]; cbn [map combine concat fst snd]; try reflexivity. rewrite map_app, R, IH. reflexivity.
  - destruct (length l =? list_sum npts); [reflexivity|]. destruct ((length l =? 3) || (length l =? 4)); [reflexivity|]. destruct (list_sum npts =? 0); [reflexivity|]. destruct (length l mod list_sum npts =? 0); reflexivity.
Qed.
Lemma spread_chosen npts ts l : chosen npts ts l -> spread npts ts = Ok l.
Proof.
  unfold spread. intros [t ->|H N|H N1 N].
  - cbn [length Nat.eqb flat_map]. rewrite app_nil_r. reflexivity.
  - destruct (Nat.eqb_spec (length ts) 1); [contradiction|]. rewrite H, Nat.eqb_refl. reflexivity.
  - destruct (Nat.eqb_spec (length ts) 1); [contradiction|]. destruct (Nat.eqb_spec (length ts) (length npts)); [contradiction|]. rewrite H, Nat.eqb_refl. reflexivity.
Qed.
Lemma chosen_incl npts ts l : chosen npts ts l -> incl l ts.
Proof.
  intros [t ->|H N|H N1 N] x Hx; [apply repeat_spec in Hx; left; symmetry; exact Hx| |exact Hx].
  apply in_concat in Hx as (r & Hr & Hx). apply in_map_iff in Hr as ([t n] & <- & Hc). cbn [fst snd] in Hx. apply repeat_spec in Hx. subst x. exact (in_combine_l _ _ _ _ Hc).
Qed.
Definition hexof (t : text) : list nat := match as_hex1 t with Some d => d | None => [] end.
Lemma as_hex_all_ok ts : (forall t, In t ts -> exists c, means t c) -> as_hex_all ts = Some (map hexof ts).
Proof.
  induction ts as [|t ts IH]; intros H; [reflexivity|]. cbn [as_hex_all map]. rewrite IH by (intros u Hu; apply H; right; exact Hu). destruct (H t (or_introl eq_refl)) as (c & M). unfold hexof at 2. destruct M; reflexivity.
Qed.
Lemma hexof_len t c : means t c -> (has_alpha t /\ length (hexof t) = 8) \/ (~ has_alpha t /\ length (hexof t) = 6).
Proof. intros M. destruct M; cbn; [right|left|right|left|left]; (split; [|reflexivity]); auto; lia. Qed.
Lemma split16 b : 16 * (b / 16) + b mod 16 = b.
Proof. symmetry. apply Nat.div_mod. lia. Qed.
Lemma bytes2 a b l : bytes (a :: b :: l) = (16 * a + b) :: bytes l.
Proof. reflexivity. Qed.
Lemma seventeen r : 16 * r + r = 17 * r.
Proof. lia. Qed.
Lemma bytes_full t c : means t c -> bytes (hexof t ++ repeat 15 (8 - length (hexof t))) = c.
Proof.
  intros M. destruct M; unfold hexof, as_hex1; cbn [length Nat.leb flat_map app Nat.sub repeat]; rewrite ?bytes2, ?seventeen, ?split16; reflexivity.
Qed.
Lemma bytes_short t c : means t c -> ~ has_alpha t -> bytes (hexof t) = firstn 3 c.
Proof.
  intros M N. destruct M; cbn [has_alpha length] in N; try (exfalso; apply N; auto; fail); unfold hexof, as_hex1; cbn [length Nat.leb flat_map app firstn]; rewrite ?bytes2, ?seventeen; reflexivity.
Qed.

(** ** Theorems *)
(** Each point has the colour its text means; all have alpha if one text has. *)
Theorem C99_colours : forall npts ts l, (forall t, In t ts -> exists c, means t c) -> chosen npts ts l ->
  exists cols, colours npts ts = Ok cols /\ Forall2 (shown ts) l cols.
Proof.
  intros npts ts l H Ch. pose proof (chosen_incl npts ts l Ch) as Inc. unfold colours. rewrite (as_hex_all_ok ts H). unfold fill_alpha.
  destruct (existsb (fun d => length d =? 8) (map hexof ts)) eqn:E.
  - assert (A : Exists has_alpha ts). { apply existsb_exists in E as (d & Hd & L). apply Nat.eqb_eq in L. apply in_map_iff in Hd as (t & <- & Ht). apply Exists_exists. exists t. split; [exact Ht|]. destruct (H t Ht) as (c & M). destruct (hexof_len t c M) as [[Ha _]|[_ L6]]; [exact Ha|lia]. }
    rewrite map_map, (spread_map (fun t => hexof t ++ repeat 15 (8 - length (hexof t)))), (spread_chosen npts ts l Ch). unfold decode.
    replace (forallb (fun d => length d =? 8) (map (fun t => hexof t ++ repeat 15 (8 - length (hexof t))) l)) with true.
    + eexists. split; [reflexivity|]. rewrite map_map. clear Ch. induction l as [|t l IH]; cbn [map]; constructor; [|apply IH; intros x Hx; apply Inc; right; exact Hx].
      destruct (H t (Inc t (or_introl eq_refl))) as (c & M). exists c. split; [exact M|]. left. split; [exact A|]. apply bytes_full. exact M.
    + symmetry. apply forallb_forall. intros d Hd. apply in_map_iff in Hd as (t & <- & Ht). destruct (H t (Inc t Ht)) as (c & M). apply Nat.eqb_eq. rewrite app_length, repeat_length. destruct (hexof_len t c M) as [[_ L]|[_ L]]; rewrite L; reflexivity.
  - assert (A : forall t, In t ts -> ~ has_alpha t). { intros t Ht Ha. destruct (H t Ht) as (c & M). destruct (hexof_len t c M) as [[_ L]|[N _]]; [|contradiction]. assert (X : existsb (fun d => length d =? 8) (map hexof ts) = true); [|congruence]. apply existsb_exists. exists (hexof t). split; [apply in_map; exact Ht|]. rewrite L. reflexivity. }
    assert (NA : ~ Exists has_alpha ts) by (intros X; apply Exists_exists in X as (t & Ht & Ha); exact (A t Ht Ha)).
    rewrite (spread_map hexof), (spread_chosen npts ts l Ch). assert (L6 : forall t, In t l -> length (hexof t) = 6). { intros t Ht. destruct (H t (Inc t Ht)) as (c & M). destruct (hexof_len t c M) as [[Ha _]|[_ L]]; [exfalso; exact (A t (Inc t Ht) Ha)|exact L]. }
    exists (map bytes (map hexof l)). split.
    + unfold decode. replace (forallb (fun d => length d =? 6) (map hexof l)) with true; [destruct (forallb _ _); reflexivity|]. symmetry. apply forallb_forall. intros d Hd. apply in_map_iff in Hd as (t & <- & Ht). rewrite (L6 t Ht). reflexivity.
    + rewrite map_map. clear Ch L6. induction l as [|t l IH]; cbn [map]; constructor; [|apply IH; intros x Hx; apply Inc; right; exact Hx].
      pose proof (Inc t (or_introl eq_refl)) as Ht. destruct (H t Ht) as (c & M). exists c. split; [exact M|]. right. split; [exact NA|]. apply bytes_short; [exact M|exact (A t Ht)].
Qed.
Print Assumptions C99_colours.
(** Three or four texts that are not for lines or points are not refused: there are three or four times as many colours as points. *)
Theorem C99_count_refuted : forall npts ts, (forall t, In t ts -> exists c, means t c) -> length ts = 3 \/ length ts = 4 -> length ts <> length npts -> length ts <> list_sum npts ->
  exists cols, colours npts ts = Ok cols /\ length cols = length ts * list_sum npts.
Proof.
  intros npts ts H L N1 N2.
  assert (Sp : forall f : text -> list nat, spread npts (map f ts) = Ok (map f (flat_map (fun x => repeat x (list_sum npts)) ts))).
  { intros f. rewrite spread_map. unfold spread. destruct (Nat.eqb_spec (length ts) 1); [lia|]. destruct (Nat.eqb_spec (length ts) (length npts)); [contradiction|]. destruct (Nat.eqb_spec (length ts) (list_sum npts)); [contradiction|]. destruct (Nat.eqb_spec (length ts) 3); [reflexivity|]. destruct (Nat.eqb_spec (length ts) 4); [reflexivity|]. lia. }
  assert (Ln : length (flat_map (fun x => repeat x (list_sum npts)) ts) = length ts * list_sum npts) by (clear; induction ts as [|t ts IH]; cbn [flat_map length]; [reflexivity|]; rewrite app_length, repeat_length, IH; reflexivity).
  assert (Inc : forall t, In t (flat_map (fun x => repeat x (list_sum npts)) ts) -> In t ts) by (intros t Ht; apply in_flat_map in Ht as (x & Hx & Ht); apply repeat_spec in Ht; subst; exact Hx).
  set (l := flat_map (fun x => repeat x (list_sum npts)) ts) in *. unfold colours. rewrite (as_hex_all_ok ts H). unfold fill_alpha.
  destruct (existsb (fun d => length d =? 8) (map hexof ts)) eqn:E.
  - rewrite map_map, Sp. unfold decode. replace (forallb (fun d => length d =? 8) (map (fun t => hexof t ++ repeat 15 (8 - length (hexof t))) l)) with true; [eexists; split; [reflexivity|]; rewrite !map_length; exact Ln|].
    symmetry. apply forallb_forall. intros d Hd. apply in_map_iff in Hd as (t & <- & Ht). destruct (H t (Inc t Ht)) as (c & M). apply Nat.eqb_eq. rewrite app_length, repeat_length. destruct (hexof_len t c M) as [[_ X]|[_ X]]; rewrite X; reflexivity.
  - rewrite Sp. exists (map bytes (map hexof l)). split; [|rewrite !map_length; exact Ln]. unfold decode. replace (forallb (fun d => length d =? 6) (map hexof l)) with true; [destruct (forallb _ _); reflexivity|].
    symmetry. apply forallb_forall. intros d Hd. apply in_map_iff in Hd as (t & <- & Ht). destruct (H t (Inc t Ht)) as (c & M). destruct (hexof_len t c M) as [[_ X]|[_ X]]; [|rewrite X; reflexivity]. exfalso. assert (Y : existsb (fun d => length d =? 8) (map hexof ts) = true); [|congruence]. apply existsb_exists. exists (hexof t). split; [apply in_map; exact (Inc t Ht)|]. rewrite X. reflexivity.
Qed.
Print Assumptions C99_count_refuted.
(** A text of seven digits is no colour, but is taken for one when another text has alpha. *)
Theorem C99_seven_digits_refuted : forall a b c d e f g r r' g1 g' b1 b' a1 a',
  (forall col, ~ means (Hex [a; b; c; d; e; f; g]) col) /\
  colours [1; 1] [Hex [a; b; c; d; e; f; g]; Hex [r; r'; g1; g'; b1; b'; a1; a']] =
    Ok [[16 * a + b; 16 * c + d; 16 * e + f; 16 * g + 15]; [16 * r + r'; 16 * g1 + g'; 16 * b1 + b'; 16 * a1 + a']].
Proof. intros a b c d e f g r r' g1 g' b1 b' a1 a'. split; [intros col M; inversion M|]. unfold colours, as_hex_all, as_hex1. cbn [length Nat.leb]. unfold fill_alpha. cbn [existsb length Nat.eqb orb map Nat.sub repeat app]. unfold spread. cbn [length Nat.eqb combine map fst snd repeat concat app]. unfold decode. cbn [forallb length Nat.eqb andb map]. rewrite !bytes2. reflexivity. Qed.
Print Assumptions C99_seven_digits_refuted.

(** ** the hypotheses are met *)
Example colours_ok : (forall t, In t [Hex [15;0;8]; Name [0;128;0;255]] -> exists c, means t c) /\ chosen [2; 1] [Hex [15;0;8]; Name [0;128;0;255]] [Hex [15;0;8]; Hex [15;0;8]; Name [0;128;0;255]] /\
  colours [2; 1] [Hex [15;0;8]; Name [0;128;0;255]] = Ok [[255;0;136;255]; [255;0;136;255]; [0;128;0;255]].
Proof.
  split; [intros t [<-|[<-|[]]]; eexists; [apply m_rgb|apply m_name]|]. split; [|reflexivity]. exact (one_for_each_line [2; 1] [Hex [15;0;8]; Name [0;128;0;255]] eq_refl ltac:(discriminate)).
Qed.
Example no_alpha : colours [2] [Hex [15;0;8]] = Ok [[255;0;136]; [255;0;136]].
Proof. reflexivity. Qed.
