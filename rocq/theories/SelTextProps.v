(** C89: a selection that is written as text means what is written. *)
From Verif Require Import TabModel TabProps SelTextModel.
From Coq Require Import String Ascii List Bool Arith ZArith QArith Lia ZifyBool ZifyNat.
Import ListNotations.
Local Open Scope nat_scope.

(** ** how selections are written, and what they mean *)
(** A whole number: a sign and digits. *)
Definition int_lit := (bool * list nat)%type.
Definition minus (n : bool) : list ascii := if n then ["-"%char] else [].
Definition digits_ok (l : list nat) : Prop := l <> [] /\ Forall (fun d => d < 10) l.
Definition print_int (i : int_lit) : list ascii := (minus (fst i) ++ TabProps.text (snd i))%list.
Definition sgn (n : bool) : Z := if n then (-1)%Z else 1%Z.
Definition int_of (i : int_lit) : Z := (sgn (fst i) * Z.of_nat (TabProps.value (snd i)))%Z.
(** A number: a sign, digits, perhaps a dot and more digits, perhaps an exponent. *)
Record num := Num { neg : bool; before : list nat; after : option (list nat); power : option int_lit }.
Definition num_ok (x : num) : Prop :=
  digits_ok (before x) /\ (forall b, after x = Some b -> Forall (fun d => d < 10) b) /\ (forall e, power x = Some e -> digits_ok (snd e)).
Definition print_num (x : num) : list ascii :=
  (minus (neg x) ++ TabProps.text (before x) ++ match after x with Some b => "."%char :: TabProps.text b | None => [] end
   ++ match power x with Some e => "e"%char :: print_int e | None => [] end)%list.
Definition num_of (x : num) : Q :=
  let m := (inject_Z (sgn (neg x)) * TabProps.number (before x) (match after x with Some b => b | None => [] end))%Q in
  match power x with Some e => (m * Qpower 10 (int_of e))%Q | None => m end.
(** An index; a coordinate, which ends in f or j; a bare number with a dot or an exponent, which is a coordinate too. *)
Inductive word := WInt (i : int_lit) | WAt (x : num) (f : bool) | WReal (x : num).
Definition suffix (f : bool) : ascii := if f then "f"%char else "j"%char.
Definition print_word (w : word) : list ascii :=
  match w with WInt i => print_int i | WAt x f => (print_num x ++ [suffix f])%list | WReal x => print_num x end.
Definition word_ok (w : word) : Prop :=
  match w with WInt i => digits_ok (snd i) | WAt x _ => num_ok x | WReal x => num_ok x /\ ~ (after x = None /\ power x = None) end.
Definition word_of (w : word) : value := match w with WInt i => VInt (int_of i) | WAt x _ | WReal x => VAt (num_of x) end.

Definition blanks (n : nat) : list ascii := repeat " "%char n.
Definition padded (p : nat * nat) (s : list ascii) : list ascii := (blanks (fst p) ++ s ++ blanks (snd p))%list.
(** One item: a word, a slice with or without a step, a list of indices, a list of coordinates. *)
Inductive item :=
| IWord (w : word)
| ISlice (a : option word) (k1 k2 : nat) (b : option word)
| IStep (a : option word) (k1 : nat) (p : nat * nat) (b : option word) (k2 : nat) (c : option int_lit)
| IInts (l : list ((nat * nat) * int_lit))
| IAts (l : list ((nat * nat) * (num * bool))).
Definition first_part (a : option word) (k : nat) : list ascii := match a with Some w => (print_word w ++ blanks k)%list | None => [] end.
Definition last_part (k : nat) (a : option word) : list ascii := match a with Some w => (blanks k ++ print_word w)%list | None => [] end.
Definition mid_part (p : nat * nat) (a : option word) : list ascii := padded p (match a with Some w => print_word w | None => [] end).
Fixpoint listed {A} (pr : A -> list ascii) (l : list ((nat * nat) * A)) : list ascii :=
  match l with [] => [] | [(p, x)] => padded p (pr x) | (p, x) :: r => (padded p (pr x) ++ ","%char :: listed pr r)%list end.
Definition print_item (i : item) : list ascii :=
  match i with
  | IWord w => print_word w
  | ISlice a k1 k2 b => (first_part a k1 ++ ":"%char :: last_part k2 b)%list
  | IStep a k1 p b k2 c => (first_part a k1 ++ ":"%char :: mid_part p b ++ ":"%char :: last_part k2 (option_map WInt c))%list
  | IInts l => ("["%char :: listed print_int l ++ ["]"%char])%list
  | IAts l => ("["%char :: listed (fun t => print_word (WAt (fst t) (snd t))) l ++ ["]"%char])%list
  end.
Definition opt_ok (a : option word) : Prop := forall w, a = Some w -> word_ok w.
Definition item_ok (i : item) : Prop :=
  match i with
  | IWord w => word_ok w
  | ISlice a _ _ b => opt_ok a /\ opt_ok b
  | IStep a _ _ b _ c => opt_ok a /\ opt_ok b /\ opt_ok (option_map WInt c)
  | IInts l => l <> [] /\ Forall (fun t => digits_ok (snd (snd t))) l
  | IAts l => l <> [] /\ Forall (fun t => num_ok (fst (snd t))) l
  end.
Definition opt_of (a : option word) : value := match a with Some w => word_of w | None => VNone end.
Definition item_of (i : item) : sel :=
  match i with
  | IWord w => One (word_of w)
  | ISlice a _ _ b => Slice (opt_of a) (opt_of b) VNone
  | IStep a _ _ b _ c => Slice (opt_of a) (opt_of b) (opt_of (option_map WInt c))
  | IInts l => One (VInts (map (fun t => int_of (snd t)) l))
  | IAts l => One (VAts (map (fun t => num_of (fst (snd t))) l))
  end.

(** ** characters *)
Definition wordc (c : ascii) : bool := is_digit c || is c "-" || is c "." || is c "e" || is c "f" || is c "j".
Lemma wordc_facts c : wordc c = true -> lower c = c /\ is_space c = false /\ is c ":" = false /\ is c "," = false /\ is c "_" = false /\ is c "=" = false /\ is c "[" = false /\ is c "]" = false.
Proof. destruct c as [[] [] [] [] [] [] [] []]; intros H; try discriminate H; repeat split. Qed.
Definition itemc (c : ascii) : bool := wordc c || is c " " || is c ":" || is c "," || is c "[" || is c "]".
Lemma itemc_facts c : itemc c = true -> lower c = c /\ is c "_" = false /\ is c "=" = false.
Proof. destruct c as [[] [] [] [] [] [] [] []]; intros H; try discriminate H; repeat split. Qed.
Lemma lower_space c : is_space (lower c) = is_space c.
Proof. destruct c as [[] [] [] [] [] [] [] []]; reflexivity. Qed.
Lemma lower_lower c : lower (lower c) = lower c.
Proof. destruct c as [[] [] [] [] [] [] [] []]; reflexivity. Qed.
Lemma digit_wordc c : is_digit c = true -> wordc c = true.
Proof. intros H. unfold wordc. rewrite H. reflexivity. Qed.
Lemma text_wordc l : Forall (fun d => d < 10) l -> forallb wordc (TabProps.text l) = true.
Proof. intros H. pose proof (text_digits l H) as D. rewrite forallb_forall in D |- *. intros c Hc. apply digit_wordc, D, Hc. Qed.
Lemma minus_wordc n : forallb wordc (minus n) = true.
Proof. destruct n; reflexivity. Qed.
Lemma print_int_wordc i : digits_ok (snd i) -> forallb wordc (print_int i) = true.
Proof. intros [_ H]. unfold print_int. rewrite forallb_app, minus_wordc, text_wordc by exact H. reflexivity. Qed.
Lemma print_num_wordc x : num_ok x -> forallb wordc (print_num x) = true.
Proof.
  intros [[_ Ha] [Hb He]]. unfold print_num. rewrite !forallb_app, minus_wordc, text_wordc by exact Ha. cbn [andb].
  destruct (after x) as [b|]; destruct (power x) as [e|]; cbn [forallb]; rewrite ?text_wordc by (apply Hb; reflexivity); rewrite ?print_int_wordc by (apply He; reflexivity); reflexivity.
Qed.
Lemma print_word_wordc w : word_ok w -> forallb wordc (print_word w) = true.
Proof.
  destruct w as [i|x f|x]; cbn [word_ok print_word]; intros H; [apply print_int_wordc; exact H| |apply print_num_wordc; tauto].
  rewrite forallb_app, print_num_wordc by exact H. destruct f; reflexivity.
Qed.
Lemma wordc_low s : forallb wordc s = true -> map lower s = s.
Proof. intros H. rewrite <- (map_id s) at 2. apply map_ext_in. intros c Hc. rewrite forallb_forall in H. apply (wordc_facts c (H c Hc)). Qed.
Lemma itemc_low s : forallb itemc s = true -> map lower s = s.
Proof. intros H. rewrite <- (map_id s) at 2. apply map_ext_in. intros c Hc. rewrite forallb_forall in H. apply (itemc_facts c (H c Hc)). Qed.
Lemma wordc_itemc s : forallb wordc s = true -> forallb itemc s = true.
Proof. rewrite !forallb_forall. intros H c Hc. unfold itemc. rewrite (H c Hc). reflexivity. Qed.
Lemma blanks_itemc n : forallb itemc (blanks n) = true.
Proof. induction n as [|n IH]; [reflexivity|exact IH]. Qed.

(** ** stripping *)
Definition starts_tight (s : list ascii) : Prop := match s with [] => True | c :: _ => is_space c = false end.
Definition tight (s : list ascii) : Prop := starts_tight s /\ starts_tight (rev s).
Lemma skip_tight s : starts_tight s -> skip is_space s = s.
Proof. destruct s as [|c s]; cbn [starts_tight skip]; [reflexivity|]. intros H. rewrite H. reflexivity. Qed.
Lemma rev_blanks n : rev (blanks n) = blanks n.
Proof. unfold blanks. induction n as [|n IH]; [reflexivity|]. cbn [repeat rev]. rewrite IH. rewrite <- repeat_cons. reflexivity. Qed.
Lemma skip_all n : skip is_space (blanks n) = [].
Proof. induction n as [|n IH]; [reflexivity|exact IH]. Qed.
Lemma strip_padded p s : tight s -> strip (padded p s) = s.
Proof.
  intros [H1 H2]. unfold strip, padded, blanks. rewrite skip_blanks. fold (blanks (snd p)). destruct s as [|c s]; [cbn [app]; rewrite skip_all; reflexivity|].
  rewrite (skip_tight ((c :: s) ++ blanks (snd p))) by exact H1. rewrite rev_app_distr, rev_blanks. unfold blanks. rewrite skip_blanks, skip_tight by exact H2. apply rev_involutive.
Qed.
Lemma padded_0 s : padded (0, 0) s = s.
Proof. unfold padded. cbn. apply app_nil_r. Qed.
Lemma strip_tight s : tight s -> strip s = s.
Proof. intros H. rewrite <- (padded_0 s) at 1. apply strip_padded. exact H. Qed.
Lemma nospace_tight s : forallb wordc s = true -> tight s.
Proof.
  intros H. rewrite forallb_forall in H. split.
  - destruct s as [|c s]; cbn; [exact I|]. apply (wordc_facts c), H. left; reflexivity.
  - destruct (rev s) as [|c r] eqn:E; cbn; [exact I|]. apply (wordc_facts c), H. rewrite in_rev, E. left; reflexivity.
Qed.

(** ** numbers *)
Lemma text_ne l : l <> [] -> TabProps.text l <> [].
Proof. destruct l; [congruence|discriminate]. Qed.
Lemma digit_head d : d < 10 -> is (char_of d) "-" = false /\ is (char_of d) "+" = false.
Proof. intros H. do 10 (destruct d as [|d]; [split; reflexivity|]). lia. Qed.
Lemma sign_text n a rest : digits_ok a -> sign (minus n ++ TabProps.text a ++ rest) = (sgn n, (TabProps.text a ++ rest)%list).
Proof.
  intros [Hn Ha]. destruct n; [reflexivity|]. destruct a as [|d a]; [congruence|]. inversion Ha as [|d' a' Hd Hr]; subst. cbn [minus app TabProps.text map sign].
  destruct (digit_head d Hd) as [-> ->]. reflexivity.
Qed.
Lemma parse_int_print i : digits_ok (snd i) -> parse_int (print_int i) = Some (int_of i).
Proof.
  intros H. unfold parse_int. rewrite strip_tight by (apply nospace_tight, print_int_wordc; exact H). unfold print_int. rewrite <- (app_nil_r (TabProps.text (snd i))), sign_text by exact H.
  rewrite app_nil_r. destruct H as [Hn Ha]. pose proof (text_ne _ Hn) as T. rewrite text_digits by exact Ha. unfold int_of. rewrite whole_value by exact Ha. destruct (TabProps.text (snd i)); [congruence|reflexivity].
Qed.
Lemma parse_int_not n a rest : digits_ok a -> forallb wordc rest = true -> forallb is_digit rest = false -> parse_int (minus n ++ TabProps.text a ++ rest) = None.
Proof.
  intros H W N. pose proof H as [Hn Ha]. unfold parse_int. rewrite strip_tight by (apply nospace_tight; rewrite !forallb_app, minus_wordc, text_wordc, W by exact Ha; reflexivity).
  rewrite sign_text by exact H. rewrite forallb_app, N, andb_false_r. destruct (TabProps.text a ++ rest)%list; reflexivity.
Qed.
Lemma scaled_print q p : (forall e, p = Some e -> digits_ok (snd e)) ->
  scaled q (match p with Some e => "e"%char :: print_int e | None => [] end) = Some (match p with Some e => (q * Qpower 10 (int_of e))%Q | None => q end).
Proof. intros H. destruct p as [e|]; [|reflexivity]. cbn [scaled]. change (is (lower "e") "e") with true. cbn iota. rewrite parse_int_print by (apply H; reflexivity). reflexivity. Qed.
Lemma parse_float_print x : num_ok x -> parse_float (print_num x) = Some (num_of x).
Proof.
  intros H. unfold parse_float. rewrite strip_tight by (apply nospace_tight, print_num_wordc; exact H). destruct H as [Ha [Hb He]]. unfold print_num. rewrite sign_text by exact Ha. destruct Ha as [Hn Ha].
  unfold num_of. set (tail := (match after x with Some b => _ | None => _ end ++ _)%list).
  assert (S : match tail with [] => True | c :: _ => is_digit c = false end). { unfold tail. destruct (after x); [reflexivity|]. destruct (power x); [reflexivity|exact I]. }
  destruct (take_all is_digit (TabProps.text (before x)) tail (text_digits _ Ha)) as [-> ->]. destruct (take_stops is_digit tail S) as [-> ->]. rewrite app_nil_r.
  pose proof (text_ne _ Hn) as T. unfold tail. clear S tail. destruct (after x) as [b|] eqn:Eb.
  - specialize (Hb b eq_refl). cbn [app]. change (is "." ".") with true. cbn iota. set (tail := match power x with Some e => _ | None => _ end).
    assert (S : match tail with [] => True | c :: _ => is_digit c = false end). { unfold tail. destruct (power x); [reflexivity|exact I]. }
    destruct (take_all is_digit (TabProps.text b) tail (text_digits _ Hb)) as [-> ->]. destruct (take_stops is_digit tail S) as [-> ->]. rewrite app_nil_r.
    unfold tail. rewrite scaled_print by exact He. unfold dec_value. rewrite !whole_value by assumption. replace (length (TabProps.text b)) with (length b) by (unfold TabProps.text; rewrite map_length; reflexivity). unfold TabProps.number.
    destruct (TabProps.text (before x)); [congruence|]. destruct (power x); reflexivity.
  - cbn [app]. unfold dec_value. rewrite whole_value by assumption. destruct (power x) as [e|] eqn:Ee.
    + change (is "e" ".") with false. cbn iota. pose proof (scaled_print (inject_Z (sgn (neg x)) * TabProps.number (before x) []) (Some e) He) as P. cbn iota in P.
      destruct (TabProps.text (before x)); [congruence|]. exact P.
    + destruct (TabProps.text (before x)); [congruence|]. reflexivity.
Qed.

(** ** words *)
Definition headc (c : ascii) : bool := is_digit c || is c "-".
Lemma head_not s w : match s with c :: _ => headc c = true | [] => False end -> match chars w with d :: _ => headc d = false | [] => True end -> text_is s w = false.
Proof.
  unfold text_is. destruct (list_eq_dec ascii_dec s (chars w)) as [E|E]; [|reflexivity]. rewrite <- E. destruct s as [|c s]; [tauto|]. intros -> H. discriminate H.
Qed.
Lemma head_text n a rest : digits_ok a -> match (minus n ++ TabProps.text a ++ rest)%list with c :: _ => headc c = true | [] => False end.
Proof.
  intros [Hn Ha]. destruct n; [reflexivity|]. destruct a as [|d a]; [congruence|]. inversion Ha; subst. cbn [minus app TabProps.text map]. unfold headc. rewrite digit_char by assumption. reflexivity.
Qed.
Lemma word_shape w : word_ok w -> exists n a rest, digits_ok a /\ print_word w = (minus n ++ TabProps.text a ++ rest)%list.
Proof.
  destruct w as [[n a]|x f|x]; cbn [word_ok print_word]; intros H.
  - exists n, a, []. split; [exact H|]. unfold print_int. rewrite app_nil_r. reflexivity.
  - destruct H as [Ha _]. exists (neg x), (before x). eexists. split; [exact Ha|]. unfold print_num. rewrite <- !app_assoc. reflexivity.
  - destruct H as [[Ha _] _]. exists (neg x), (before x). eexists. split; [exact Ha|]. unfold print_num. reflexivity.
Qed.
Lemma word_head w : word_ok w -> match print_word w with c :: _ => headc c = true | [] => False end.
Proof. intros H. destruct (word_shape w H) as [n [a [rest [Ha ->]]]]. apply head_text, Ha. Qed.
Lemma not_bracketed s : match s with c :: _ => is c "[" = false | [] => True end -> bracketed s = false.
Proof. destruct s as [|c s]; [reflexivity|]. cbn [bracketed]. intros ->. reflexivity. Qed.
Lemma headc_bracket c : headc c = true -> is c "[" = false.
Proof. destruct c as [[] [] [] [] [] [] [] []]; intros H; try discriminate H; reflexivity. Qed.
(* no letter that is not written *)
Lemma has_app c a b : has c (a ++ b) = has c a || has c b.
Proof. apply existsb_app. Qed.
Lemma has_none (P : ascii -> bool) c s : forallb P s = true -> (forall d, P d = true -> is c d = false) -> has c s = false.
Proof.
  intros H N. unfold has. destruct (existsb (is c) s) eqn:E; [|reflexivity]. apply existsb_exists in E. destruct E as [d [Hd E]]. rewrite forallb_forall in H. rewrite (N d (H d Hd)) in E. discriminate E.
Qed.
Definition numc (c : ascii) : bool := is_digit c || is c "-" || is c "." || is c "e".
Lemma numc_fj d : numc d = true -> is "f" d = false /\ is "j" d = false /\ is d "f" = false.
Proof. destruct d as [[] [] [] [] [] [] [] []]; intros H; try discriminate H; repeat split. Qed.
Lemma text_numc l : Forall (fun d => d < 10) l -> forallb numc (TabProps.text l) = true.
Proof. intros H. pose proof (text_digits l H) as D. rewrite forallb_forall in D |- *. intros c Hc. unfold numc. rewrite D by exact Hc. reflexivity. Qed.
Lemma minus_numc n : forallb numc (minus n) = true.
Proof. destruct n; reflexivity. Qed.
Lemma print_int_numc i : digits_ok (snd i) -> forallb numc (print_int i) = true.
Proof. intros [_ H]. unfold print_int. rewrite forallb_app, minus_numc, text_numc by exact H. reflexivity. Qed.
Lemma print_num_numc x : num_ok x -> forallb numc (print_num x) = true.
Proof.
  intros [[_ Ha] [Hb He]]. unfold print_num. rewrite !forallb_app, minus_numc, text_numc by exact Ha. cbn [andb].
  destruct (after x) as [b|]; destruct (power x) as [e|]; cbn [forallb]; rewrite ?text_numc by (apply Hb; reflexivity); rewrite ?print_int_numc by (apply He; reflexivity); reflexivity.
Qed.
Lemma replace_none a b s : (forall c, In c s -> is c a = false) -> replace a b s = s.
Proof. intros H. unfold replace. rewrite <- (map_id s) at 2. apply map_ext_in. intros c Hc. rewrite (H c Hc). reflexivity. Qed.
Lemma replace_app a b s t : replace a b (s ++ t) = (replace a b s ++ replace a b t)%list.
Proof. apply map_app. Qed.
Lemma replace_fj x f : num_ok x -> replace "f" "j" (print_word (WAt x f)) = (print_num x ++ ["j"%char])%list.
Proof.
  intros H. cbn [print_word]. rewrite replace_app, replace_none; [destruct f; reflexivity|]. intros c Hc. pose proof (print_num_numc x H) as N. rewrite forallb_forall in N. apply (numc_fj c (N c Hc)).
Qed.
Lemma parse_imag_print x : num_ok x -> parse_imag (print_num x ++ ["j"%char]) = Some (num_of x).
Proof.
  intros H. unfold parse_imag. rewrite strip_tight by (apply nospace_tight; rewrite forallb_app, print_num_wordc by exact H; reflexivity).
  rewrite rev_app_distr. cbn [rev app]. change (is "j" "j") with true. cbn iota. rewrite rev_involutive. apply parse_float_print. exact H.
Qed.
Lemma std_value_word p w : word_ok w -> std_value (padded p (print_word w)) = word_of w.
Proof.
  intros H. pose proof (print_word_wordc w H) as W. pose proof (word_head w H) as D. unfold std_value. rewrite strip_padded by (apply nospace_tight; exact W). rewrite wordc_low by exact W.
  rewrite !(head_not (print_word w)) by (first [exact D|reflexivity|(destruct (print_word w); [destruct D|exact I])]).
  replace (text_is (print_word w) "") with false by (unfold text_is; destruct (print_word w); [destruct D|reflexivity]).
  cbn [orb]. rewrite not_bracketed by (destruct (print_word w); [exact I|apply headc_bracket; exact D]).
  destruct w as [i|x f|x]; cbn [word_ok] in H; cbn [word_of].
  - cbn [print_word]. rewrite parse_int_print by exact H. reflexivity.
  - assert (P : parse_int (print_word (WAt x f)) = None).
    { cbn [print_word]. unfold print_num. rewrite <- !app_assoc. pose proof H as [Ha [Hb He]]. apply parse_int_not; [exact Ha| |].
      - pose proof (print_word_wordc (WAt x f) H) as W'. cbn [print_word] in W'. unfold print_num in W'. rewrite <- !app_assoc in W'. rewrite forallb_app in W'. apply andb_prop in W' as [_ W']. rewrite forallb_app in W'. apply andb_prop in W' as [_ W']. exact W'.
      - rewrite !forallb_app. destruct f; cbn; rewrite !andb_false_r; reflexivity. }
    rewrite P. replace (has "j" (print_word (WAt x f)) || has "f" (print_word (WAt x f))) with true.
    2:{ cbn [print_word]. rewrite !has_app. destruct f; cbn [suffix]; [change (has "f" ["f"%char]) with true|change (has "j" ["j"%char]) with true]; rewrite !orb_true_r; reflexivity. }
    rewrite replace_fj, parse_imag_print by exact H. reflexivity.
  - destruct H as [H N]. cbn [print_word]. assert (P : parse_int (print_num x) = None).
    { unfold print_num. pose proof H as [Ha [Hb He]]. apply parse_int_not; [exact Ha| |].
      - pose proof (print_num_wordc x H) as W'. unfold print_num in W'. rewrite forallb_app in W'. apply andb_prop in W' as [_ W']. rewrite forallb_app in W'. apply andb_prop in W' as [_ W']. exact W'.
      - destruct (after x); [reflexivity|]. destruct (power x); [reflexivity|]. exfalso. apply N. split; reflexivity. }
    rewrite P. pose proof (print_num_numc x H) as C. rewrite !(has_none numc _ _ C) by (intros d Hd; apply (numc_fj d Hd)). cbn [orb]. rewrite parse_float_print by exact H. reflexivity.
Qed.
Lemma std_value_blank p : std_value (padded p []) = VNone.
Proof. unfold std_value. rewrite strip_padded by (split; exact I). reflexivity. Qed.
Lemma std_value_mid p a : opt_ok a -> std_value (mid_part p a) = opt_of a.
Proof. intros H. unfold mid_part. destruct a as [w|]; [apply std_value_word, H; reflexivity|apply std_value_blank]. Qed.
Lemma std_value_first a k : opt_ok a -> std_value (first_part a k) = opt_of a.
Proof. intros H. destruct a as [w|]; [|reflexivity]. cbn [first_part opt_of]. apply (std_value_word (0, k)), H. reflexivity. Qed.
Lemma std_value_last a k : opt_ok a -> std_value (last_part k a) = opt_of a.
Proof. intros H. destruct a as [w|]; [|reflexivity]. cbn [last_part opt_of]. pose proof (std_value_word (k, 0) w (H w eq_refl)) as P. unfold padded in P. cbn [fst snd blanks repeat] in P. rewrite app_nil_r in P. exact P. Qed.

(** ** items *)
Definition partc (c : ascii) : bool := wordc c || is c " ".
Lemma partc_facts c : partc c = true -> itemc c = true /\ is c ":" = false /\ is ":" c = false /\ is c "," = false /\ is c "[" = false /\ is c "]" = false.
Proof. destruct c as [[] [] [] [] [] [] [] []]; intros H; try discriminate H; repeat split. Qed.
Lemma wordc_partc s : forallb wordc s = true -> forallb partc s = true.
Proof. rewrite !forallb_forall. intros H c Hc. unfold partc. rewrite (H c Hc). reflexivity. Qed.
Lemma blanks_partc n : forallb partc (blanks n) = true.
Proof. induction n as [|n IH]; [reflexivity|exact IH]. Qed.
Lemma padded_partc p s : forallb partc s = true -> forallb partc (padded p s) = true.
Proof. intros H. unfold padded. rewrite !forallb_app, !blanks_partc, H. reflexivity. Qed.
Lemma first_partc a k : opt_ok a -> forallb partc (first_part a k) = true.
Proof. intros H. destruct a as [w|]; [|reflexivity]. cbn [first_part]. rewrite forallb_app, blanks_partc, wordc_partc by (apply print_word_wordc, H; reflexivity). reflexivity. Qed.
Lemma last_partc a k : opt_ok a -> forallb partc (last_part k a) = true.
Proof. intros H. destruct a as [w|]; [|reflexivity]. cbn [last_part]. rewrite forallb_app, blanks_partc, wordc_partc by (apply print_word_wordc, H; reflexivity). reflexivity. Qed.
Lemma mid_partc a p : opt_ok a -> forallb partc (mid_part p a) = true.
Proof. intros H. apply padded_partc. destruct a as [w|]; [|reflexivity]. apply wordc_partc, print_word_wordc, H. reflexivity. Qed.
Lemma partc_itemc s : forallb partc s = true -> forallb itemc s = true.
Proof. rewrite !forallb_forall. intros H c Hc. apply (partc_facts c (H c Hc)). Qed.
Lemma listed_itemc {A} (pr : A -> list ascii) l : Forall (fun t => forallb wordc (pr (snd t)) = true) l -> forallb itemc (listed pr l) = true.
Proof.
  induction l as [|[p x] l IH]; intros H; [reflexivity|]. inversion H as [|t l' Hx Hl]; subst. cbn [snd] in Hx. assert (P : forallb itemc (padded p (pr x)) = true) by (apply partc_itemc, padded_partc, wordc_partc, Hx).
  cbn [listed]. destruct l as [|y l]; [exact P|]. rewrite forallb_app, P. cbn [forallb]. rewrite (IH Hl). reflexivity.
Qed.
Lemma ints_words (l : list ((nat * nat) * int_lit)) : Forall (fun t => digits_ok (snd (snd t))) l -> Forall (fun t => forallb wordc (print_int (snd t)) = true) l.
Proof. apply Forall_impl. intros t. apply print_int_wordc. Qed.
Lemma ats_words (l : list ((nat * nat) * (num * bool))) : Forall (fun t => num_ok (fst (snd t))) l -> Forall (fun t => forallb wordc (print_word (WAt (fst (snd t)) (snd (snd t)))) = true) l.
Proof. apply Forall_impl. intros t Ht. apply (print_word_wordc (WAt _ _)). exact Ht. Qed.
Lemma item_itemc i : item_ok i -> forallb itemc (print_item i) = true.
Proof.
  destruct i as [w|a k1 k2 b|a k1 p b k2 c|l|l]; cbn [item_ok print_item]; intros H.
  - apply wordc_itemc, print_word_wordc, H.
  - destruct H as [Ha Hb]. rewrite forallb_app. cbn [forallb]. rewrite !partc_itemc by (first [apply first_partc; exact Ha|apply last_partc; exact Hb]). reflexivity.
  - destruct H as [Ha [Hb Hc]]. rewrite forallb_app. cbn [forallb]. rewrite forallb_app. cbn [forallb].
    rewrite (partc_itemc (first_part a k1)) by (apply first_partc; exact Ha). rewrite (partc_itemc (mid_part p b)) by (apply mid_partc; exact Hb). rewrite (partc_itemc (last_part k2 _)) by (apply last_partc; exact Hc). reflexivity.
  - cbn [forallb]. rewrite forallb_app, listed_itemc by (apply ints_words, H). reflexivity.
  - cbn [forallb]. rewrite forallb_app, (listed_itemc (fun t => print_word (WAt (fst t) (snd t)))) by (apply ats_words, H). reflexivity.
Qed.
Lemma starts_app s t : starts_tight s -> starts_tight t -> starts_tight (s ++ t).
Proof. destruct s; [intros _ H; exact H|intros H _; exact H]. Qed.
Lemma first_starts a k t : opt_ok a -> starts_tight (first_part a k ++ ":"%char :: t).
Proof.
  intros H. destruct a as [w|]; [|reflexivity]. cbn [first_part]. pose proof (word_head w (H w eq_refl)) as D. pose proof (print_word_wordc w (H w eq_refl)) as W.
  destruct (print_word w) as [|c r]; [destruct D|]. cbn [app starts_tight]. cbn [forallb] in W. apply andb_prop in W as [W _]. apply (wordc_facts c W).
Qed.
Lemma last_ends a k t : opt_ok a -> starts_tight (rev (t ++ ":"%char :: last_part k a)).
Proof.
  intros H. rewrite rev_app_distr. cbn [rev]. destruct a as [w|]; cbn [last_part]; [|reflexivity]. rewrite rev_app_distr. pose proof (word_head w (H w eq_refl)) as D. pose proof (print_word_wordc w (H w eq_refl)) as W.
  destruct (nospace_tight _ W) as [_ T]. destruct (rev (print_word w)) as [|c r] eqn:E; [|exact T]. apply (f_equal (@rev ascii)) in E. rewrite rev_involutive in E. rewrite E in D. destruct D.
Qed.
Lemma bracket_tight s : tight ("["%char :: s ++ ["]"%char]).
Proof. split; [reflexivity|]. cbn [rev]. rewrite rev_app_distr. reflexivity. Qed.
Lemma item_tight i : item_ok i -> tight (print_item i).
Proof.
  destruct i as [w|a k1 k2 b|a k1 p b k2 c|l|l]; cbn [item_ok print_item]; intros H.
  - apply nospace_tight, print_word_wordc, H.
  - split; [apply first_starts, H|apply last_ends, H].
  - split; [apply first_starts, H|]. rewrite app_comm_cons, app_assoc. apply last_ends, H.
  - apply bracket_tight.
  - apply bracket_tight.
Qed.
Lemma split_on_none d s : (forall c, In c s -> is c d = false) -> split_on d s = [s].
Proof. induction s as [|c s IH]; intros H; [reflexivity|]. cbn [split_on]. rewrite (H c (or_introl eq_refl)), IH by (intros e He; apply H; right; exact He). reflexivity. Qed.
Lemma split_on_app d s t : (forall c, In c s -> is c d = false) -> is d d = true -> split_on d (s ++ d :: t) = s :: split_on d t.
Proof. induction s as [|c s IH]; intros H E; cbn [app split_on]; [rewrite E; reflexivity|]. rewrite (H c (or_introl eq_refl)), IH by (first [exact E|intros e He; apply H; right; exact He]). reflexivity. Qed.
Lemma partc_colon s : forallb partc s = true -> forall c, In c s -> is c ":" = false.
Proof. rewrite forallb_forall. intros H c Hc. apply (partc_facts c (H c Hc)). Qed.

(** ** lists *)
Lemma words_blanks n s : words (blanks n ++ s) = words s.
Proof. induction n as [|n IH]; [reflexivity|exact IH]. Qed.
Lemma words_end n : words (blanks n) = [].
Proof. induction n as [|n IH]; [reflexivity|exact IH]. Qed.
Lemma words_token t s : t <> [] -> forallb wordc t = true -> match s with [] => True | c :: _ => is_space c = true end -> words (t ++ s) = t :: words s.
Proof.
  induction t as [|c t IH]; intros N W S; [congruence|]. cbn [forallb] in W. apply andb_prop in W as [Wc W]. destruct (wordc_facts c Wc) as [_ [Hs _]]. destruct t as [|d t].
  - cbn [app words]. rewrite Hs. destruct s as [|e s]; [reflexivity|]. rewrite S. reflexivity.
  - specialize (IH ltac:(discriminate) W S). cbn [app] in IH |- *. cbn [words]. rewrite Hs. cbn [forallb] in W. apply andb_prop in W as [Wd _]. destruct (wordc_facts d Wd) as [_ [Hd _]]. rewrite Hd.
    cbn [words] in IH. rewrite Hd in IH. rewrite IH. reflexivity.
Qed.

(* the text of a list when commas are blanks and f is j *)
Lemma words_listed {A} (pr tr : A -> list ascii) l :
  Forall (fun t => forallb wordc (pr (snd t)) = true /\ replace "f" "j" (pr (snd t)) = tr (snd t) /\ forallb wordc (tr (snd t)) = true /\ tr (snd t) <> []) l ->
  words (replace "f" "j" (replace "," " " (listed pr l))) = map (fun t => tr (snd t)) l.
Proof.
  assert (B : forall n, replace "f" "j" (replace "," " " (blanks n)) = blanks n). { induction n as [|n IH]; [reflexivity|]. cbn [blanks repeat]. unfold replace in *. cbn [map]. fold (blanks n). rewrite IH. reflexivity. }
  assert (T : forall s, forallb wordc s = true -> replace "," " " s = s). { intros s Hs. apply replace_none. intros c Hc. rewrite forallb_forall in Hs. apply (wordc_facts c (Hs c Hc)). }
  induction l as [|[p x] l IH]; intros H; [reflexivity|]. inversion H as [|t l' Hx Hl]; subst. cbn [snd] in Hx. destruct Hx as [W [R [W' N]]]. cbn [listed map snd]. destruct l as [|y l].
  - unfold padded. rewrite !replace_app, !B, T, R by exact W. rewrite words_blanks, words_token; [rewrite words_end; reflexivity|exact N|exact W'|destruct (snd p); [exact I|reflexivity]].
  - unfold padded. rewrite <- !app_assoc. rewrite !replace_app, !B, T, R by exact W. rewrite words_blanks, words_token; [|exact N|exact W'|destruct (snd p); reflexivity]. rewrite words_blanks.
    change (replace "f" "j" (replace "," " " (","%char :: listed pr (y :: l)))) with (" "%char :: replace "f" "j" (replace "," " " (listed pr (y :: l)))). cbn [words]. change (is_space " ") with true. cbn iota. rewrite (IH Hl). reflexivity.
Qed.
Lemma all_some_all {A B} (f : A -> option B) (g : A -> B) l : Forall (fun x => f x = Some (g x)) l -> all_some (map f l) = Some (map g l).
Proof. induction 1 as [|x l Hx Hl IH]; [reflexivity|]. cbn [map all_some]. rewrite Hx, IH. reflexivity. Qed.
Lemma inner_text s : removelast (tl ("["%char :: s ++ ["]"%char])) = s.
Proof. cbn [tl]. apply removelast_last. Qed.
Lemma bracketed_text s : bracketed ("["%char :: s ++ ["]"%char]) = true.
Proof. cbn [bracketed]. rewrite rev_app_distr. reflexivity. Qed.
Lemma has_listed_none {A} (pr : A -> list ascii) l : Forall (fun t => forallb numc (pr (snd t)) = true) l -> has "j" (replace "f" "j" (replace "," " " (listed pr l))) = false.
Proof.
  intros H. apply (has_none (fun c => numc c || is c " ")).
  2:{ intros d. destruct d as [[] [] [] [] [] [] [] []]; intros Hd; try discriminate Hd; reflexivity. }
  assert (B : forall n, forallb (fun c => numc c || is c " ") (replace "f" "j" (replace "," " " (blanks n))) = true) by (induction n as [|n IH]; [reflexivity|exact IH]).
  assert (T : forall s, forallb numc s = true -> forallb (fun c => numc c || is c " ") (replace "f" "j" (replace "," " " s)) = true).
  { induction s as [|c s IH]; intros Hs; [reflexivity|]. cbn [forallb] in Hs. apply andb_prop in Hs as [Hc Hs]. unfold replace in *. cbn [map forallb]. rewrite (IH Hs), andb_true_r. clear IH Hs B H.
    destruct c as [[] [] [] [] [] [] [] []]; try discriminate Hc; reflexivity. }
  induction H as [|[p x] l Hx Hl IH]; [reflexivity|]. cbn [snd] in Hx. cbn [listed]. destruct l as [|y l]; unfold padded; rewrite !replace_app, !forallb_app, !B, T by exact Hx; [reflexivity|].
  change (replace "f" "j" (replace "," " " (","%char :: listed pr (y :: l)))) with (" "%char :: replace "f" "j" (replace "," " " (listed pr (y :: l)))). cbn [forallb]. rewrite IH. reflexivity.
Qed.
Lemma has_in c s : is c c = true -> In c s -> has c s = true.
Proof. intros E H. apply existsb_exists. exists c. split; assumption. Qed.
Lemma has_listed_j l : l <> [] -> Forall (fun t => num_ok (fst (snd t))) l -> has "j" (replace "f" "j" (replace "," " " (listed (fun t => print_word (WAt (fst t) (snd t))) l))) = true.
Proof.
  intros N H. destruct l as [|[p [x f]] l]; [congruence|]. inversion H as [|t l' Hx Hl]; subst. cbn [fst snd] in Hx. apply has_in; [reflexivity|].
  assert (J : In "j"%char (replace "f" "j" (replace "," " " (print_word (WAt x f))))).
  { cbn [print_word]. rewrite !replace_app. apply in_or_app. right. destruct f; left; reflexivity. }
  cbn [listed fst snd]. destruct l as [|y l]; unfold padded; rewrite !replace_app, ?in_app_iff; tauto.
Qed.
Lemma std_array_ints l : l <> [] -> Forall (fun t => digits_ok (snd (snd t))) l -> std_array (print_item (IInts l)) = VInts (map (fun t => int_of (snd t)) l).
Proof.
  intros N H. cbn [print_item]. unfold std_array. rewrite inner_text. rewrite has_listed_none by (revert H; apply Forall_impl; intros t; apply print_int_numc).
  rewrite (words_listed print_int print_int).
  2:{ revert H. apply Forall_impl. intros t Ht. pose proof (print_int_wordc _ Ht) as W. repeat split; try exact W.
      - apply replace_none. intros c Hc. pose proof (print_int_numc _ Ht) as M. rewrite forallb_forall in M. apply (numc_fj c (M c Hc)).
      - unfold print_int. destruct Ht as [Hn _]. pose proof (text_ne _ Hn). intros E. apply app_eq_nil in E. tauto. }
  rewrite map_map. rewrite (all_some_all _ (fun t => int_of (snd t))); [reflexivity|]. revert H. apply Forall_impl. intros t Ht. apply parse_int_print. exact Ht.
Qed.
Lemma std_array_ats l : l <> [] -> Forall (fun t => num_ok (fst (snd t))) l -> std_array (print_item (IAts l)) = VAts (map (fun t => num_of (fst (snd t))) l).
Proof.
  intros N H. cbn [print_item]. unfold std_array. rewrite inner_text. rewrite has_listed_j by assumption.
  rewrite (words_listed (fun t => print_word (WAt (fst t) (snd t))) (fun t => (print_num (fst t) ++ ["j"%char])%list)).
  2:{ revert H. apply Forall_impl. intros t Ht. repeat split.
      - apply (print_word_wordc (WAt _ _)). exact Ht.
      - apply replace_fj. exact Ht.
      - rewrite forallb_app, print_num_wordc by exact Ht. reflexivity.
      - intros E. apply app_eq_nil in E. destruct E as [_ E]. discriminate E. }
  rewrite map_map. rewrite (all_some_all _ (fun t => num_of (fst (snd t)))); [reflexivity|]. revert H. apply Forall_impl. intros t Ht. apply parse_imag_print. exact Ht.
Qed.
Lemma bad_word w : bad (word_of w) = false.
Proof. destruct w; reflexivity. Qed.
Lemma bad_opt a : bad (opt_of a) = false.
Proof. destruct a as [w|]; [apply bad_word|reflexivity]. Qed.
Lemma nil_match {A B} (s : list A) (a b : B) : s <> [] -> match s with [] => a | _ => b end = b.
Proof. destruct s; [congruence|reflexivity]. Qed.
Lemma first_not_bracket a k t : opt_ok a -> bracketed (first_part a k ++ ":"%char :: t) = false.
Proof.
  intros H. apply not_bracketed. destruct a as [w|]; [|reflexivity]. cbn [first_part]. pose proof (word_head w (H w eq_refl)) as D. destruct (print_word w) as [|c r]; [destruct D|]. cbn [app]. apply headc_bracket, D.
Qed.

(** An item, with blanks around it, means what is written: an index, a coordinate, a slice, a list. *)
Theorem C89_item : forall i p, item_ok i -> std_sel (padded p (print_item i)) = item_of i.
Proof.
  intros i p H. unfold std_sel. rewrite strip_padded by (apply item_tight; exact H). rewrite itemc_low by (apply item_itemc; exact H).
  destruct i as [w|a k1 k2 b|a k1 q b k2 c|l|l]; cbn [item_ok item_of] in H |- *.
  - cbn [print_item]. pose proof (word_head w H) as D. rewrite nil_match by (destruct (print_word w); [destruct D|discriminate]).
    rewrite not_bracketed by (destruct (print_word w); [exact I|apply headc_bracket; exact D]).
    rewrite (has_none wordc) by (first [apply print_word_wordc; exact H|intros d; destruct d as [[] [] [] [] [] [] [] []]; intros Hd; try discriminate Hd; reflexivity]).
    pose proof (std_value_word (0, 0) w H) as V. rewrite padded_0 in V. cbv zeta. rewrite V, bad_word. reflexivity.
  - destruct H as [Ha Hb]. cbn [print_item]. rewrite nil_match by (destruct (first_part a k1); discriminate). rewrite first_not_bracket by exact Ha.
    rewrite has_in by (first [reflexivity|apply in_or_app; right; left; reflexivity]).
    rewrite split_on_app by (first [reflexivity|apply partc_colon, first_partc; exact Ha]). rewrite split_on_none by (apply partc_colon, last_partc; exact Hb).
    cbn [map]. rewrite std_value_first, std_value_last by assumption. rewrite !bad_opt. reflexivity.
  - destruct H as [Ha [Hb Hc]]. cbn [print_item]. rewrite nil_match by (destruct (first_part a k1); discriminate). rewrite first_not_bracket by exact Ha.
    rewrite has_in by (first [reflexivity|apply in_or_app; right; left; reflexivity]).
    rewrite split_on_app by (first [reflexivity|apply partc_colon, first_partc; exact Ha]). rewrite split_on_app by (first [reflexivity|apply partc_colon, mid_partc; exact Hb]).
    rewrite split_on_none by (apply partc_colon, last_partc; exact Hc).
    cbn [map]. rewrite std_value_first, std_value_mid, std_value_last by assumption. rewrite !bad_opt. replace (good_step (opt_of (option_map WInt c))) with true by (destruct c; reflexivity). reflexivity.
  - cbv zeta. rewrite std_array_ints by apply H. cbn [print_item]. rewrite bracketed_text. reflexivity.
  - cbv zeta. rewrite std_array_ats by apply H. cbn [print_item]. rewrite bracketed_text. reflexivity.
Qed.
Print Assumptions C89_item.

(** Capital and small letters are the same. *)
Lemma skip_lower s : skip is_space (map lower s) = map lower (skip is_space s).
Proof. induction s as [|c s IH]; [reflexivity|]. cbn [map skip]. rewrite lower_space. destruct (is_space c); [exact IH|reflexivity]. Qed.
Lemma strip_lower s : strip (map lower s) = map lower (strip s).
Proof. unfold strip. rewrite skip_lower, <- map_rev, skip_lower, map_rev. reflexivity. Qed.
(** Letter number [k] of the alphabet, capital and small. *)
Definition same_letter (c d : ascii) : Prop :=
  c = d \/ exists k, k < 26 /\ ((c = ascii_of_nat (65 + k) /\ d = ascii_of_nat (97 + k)) \/ (c = ascii_of_nat (97 + k) /\ d = ascii_of_nat (65 + k))).
Lemma same_lower c d : same_letter c d -> lower c = lower d.
Proof. intros [->|[k [Hk H]]]; [reflexivity|]. do 26 (destruct k as [|k]; [destruct H as [[-> ->]|[-> ->]]; reflexivity|]). lia. Qed.
Theorem C89_case : forall s t, Forall2 same_letter s t -> std_sel s = std_sel t.
Proof.
  intros s t H. assert (E : map lower s = map lower t) by (induction H as [|c d s t Hc H IH]; [reflexivity|]; cbn [map]; rewrite IH, (same_lower c d Hc); reflexivity).
  unfold std_sel. rewrite <- !strip_lower, E. reflexivity.
Qed.
Print Assumptions C89_case.

(** The words that have a meaning of their own. *)
Theorem C89_keywords : forall p w v, In (w, v) [("newaxis", VNone); ("np.newaxis", VNone); ("numpy.newaxis", VNone); ("none", VNone); ("true", VTrue); ("false", VFalse); ("ellipsis", VEll); ("...", VEll)]%string ->
  std_sel (padded p (list_ascii_of_string w)) = One v.
Proof.
  intros p w v H. unfold std_sel. cbn [In] in H. repeat (destruct H as [H|H]; [inversion H; subst; rewrite strip_padded by (split; reflexivity); reflexivity|]). destruct H.
Qed.
Print Assumptions C89_keywords.

(** ** the whole text: items with or without the name of their axis, with commas between *)
Definition entry := (option ((nat * nat) * list ascii) * ((nat * nat) * item))%type.
Definition namec (c : ascii) : bool := negb (is c "," || is c "=" || is c "_" || is c "[" || is c "]").
Definition name_ok (n : list ascii) : Prop := tight n /\ forallb namec n = true.
Definition entry_ok (e : entry) : Prop := (forall p n, fst e = Some (p, n) -> name_ok n) /\ item_ok (snd (snd e)).
Definition print_entry (e : entry) : list ascii :=
  (match fst e with Some (p, n) => (padded p n ++ ["="%char])%list | None => [] end ++ padded (fst (snd e)) (print_item (snd (snd e))))%list.
Fixpoint print_all (l : list entry) : list ascii :=
  match l with [] => [] | [e] => print_entry e | e :: r => (print_entry e ++ ","%char :: print_all r)%list end.
Definition entry_of (e : entry) : option (list ascii) * sel := (option_map snd (fst e), item_of (snd (snd e))).

Lemma cut_none s : (forall c, In c s -> is c "=" = false) -> cut s = None.
Proof. induction s as [|c s IH]; intros H; [reflexivity|]. cbn [cut]. rewrite (H c (or_introl eq_refl)), IH by (intros d Hd; apply H; right; exact Hd). reflexivity. Qed.
Lemma cut_app s t : (forall c, In c s -> is c "=" = false) -> cut (s ++ "="%char :: t) = Some (s, t).
Proof. induction s as [|c s IH]; intros H; [reflexivity|]. cbn [app cut]. rewrite (H c (or_introl eq_refl)), IH by (intros d Hd; apply H; right; exact Hd). reflexivity. Qed.
Lemma namec_facts c : namec c = true -> is c "," = false /\ is c "=" = false /\ is c "_" = false /\ is c "[" = false /\ is c "]" = false.
Proof. unfold namec. destruct (is c ","), (is c "="), (is c "_"), (is c "["), (is c "]"); intros H; try discriminate H; repeat split. Qed.
Lemma blanks_namec n : forallb namec (blanks n) = true.
Proof. induction n as [|n IH]; [reflexivity|exact IH]. Qed.
Lemma padded_namec p n : forallb namec n = true -> forallb namec (padded p n) = true.
Proof. intros H. unfold padded. rewrite !forallb_app, !blanks_namec, H. reflexivity. Qed.
Lemma padded_itemc p s : forallb itemc s = true -> forallb itemc (padded p s) = true.
Proof. intros H. unfold padded. rewrite !forallb_app, !blanks_itemc, H. reflexivity. Qed.
Lemma entry_named e : entry_ok e -> (let '(n, t) := named (print_entry e) in (n, std_sel t)) = entry_of e.
Proof.
  destruct e as [[[pn n]|] [p i]]; intros [Hn Hi]; cbn [fst snd] in *; unfold print_entry, entry_of; cbn [fst snd option_map]; unfold named.
  - destruct (Hn pn n eq_refl) as [Tn Nn]. rewrite <- app_assoc. cbn [app]. rewrite cut_app by (intros c Hc; pose proof (padded_namec pn n Nn) as P; rewrite forallb_forall in P; apply (namec_facts c (P c Hc))).
    rewrite !strip_padded by (first [exact Tn|apply item_tight; exact Hi]). rewrite <- (padded_0 (print_item i)), C89_item by exact Hi. reflexivity.
  - cbn [app]. rewrite cut_none by (intros c Hc; pose proof (padded_itemc p _ (item_itemc i Hi)) as P; rewrite forallb_forall in P; apply (itemc_facts c (P c Hc))). rewrite C89_item by exact Hi. reflexivity.
Qed.
Lemma split_top_in c b t p ps : split_top (if is c "[" then true else if is c "]" then false else b) t = p :: ps -> is c "," && negb b = false -> split_top b (c :: t) = (c :: p) :: ps.
Proof. intros H E. cbn [split_top]. rewrite E, H. reflexivity. Qed.
Lemma split_top_plain b s t p ps : (forall c, In c s -> is c "," = false /\ is c "[" = false /\ is c "]" = false) -> split_top b t = p :: ps -> split_top b (s ++ t) = (s ++ p)%list :: ps.
Proof.
  induction s as [|c s IH]; intros H E; [exact E|]. destruct (H c (or_introl eq_refl)) as [H1 [H2 H3]]. cbn [app]. apply split_top_in; [rewrite H2, H3; apply IH; [intros d Hd; apply H; right; exact Hd|exact E]|rewrite H1; reflexivity].
Qed.
Lemma split_top_inside s t p ps : (forall c, In c s -> is c "[" = false /\ is c "]" = false) -> split_top true t = p :: ps -> split_top true (s ++ t) = (s ++ p)%list :: ps.
Proof.
  induction s as [|c s IH]; intros H E; [exact E|]. destruct (H c (or_introl eq_refl)) as [H2 H3]. cbn [app]. apply split_top_in; [rewrite H2, H3; apply IH; [intros d Hd; apply H; right; exact Hd|exact E]|apply andb_false_r].
Qed.
Lemma split_top_open s t p ps : (forall c, In c s -> is c "[" = false /\ is c "]" = false) -> split_top false t = p :: ps -> split_top false ("["%char :: s ++ "]"%char :: t) = ("["%char :: s ++ "]"%char :: p)%list :: ps.
Proof. intros H E. apply split_top_in; [|reflexivity]. cbn. apply split_top_inside; [exact H|]. apply split_top_in; [exact E|reflexivity]. Qed.
Lemma listed_nobracket {A} (pr : A -> list ascii) l : Forall (fun t => forallb wordc (pr (snd t)) = true) l -> forall c, In c (listed pr l) -> is c "[" = false /\ is c "]" = false.
Proof.
  induction l as [|[p x] l IH]; intros H c Hc; [destruct Hc|]. inversion H as [|t l' Hx Hl]; subst. cbn [snd] in Hx. pose proof (padded_partc p _ (wordc_partc _ Hx)) as P. rewrite forallb_forall in P.
  cbn [listed] in Hc. destruct l as [|y l]; [split; apply (partc_facts c (P c Hc))|]. apply in_app_or in Hc. destruct Hc as [Hc|[<-|Hc]]; [split; apply (partc_facts c (P c Hc))|split; reflexivity|apply IH; assumption].
Qed.
Lemma item_split i t p ps : item_ok i -> split_top false t = p :: ps -> split_top false (print_item i ++ t) = (print_item i ++ p)%list :: ps.
Proof.
  intros H E. assert (S : forall s, forallb (fun c => partc c || is c ":") s = true -> split_top false (s ++ t) = (s ++ p)%list :: ps).
  { intros s Hs. apply split_top_plain; [|exact E]. intros c Hc. rewrite forallb_forall in Hs. specialize (Hs c Hc). clear - Hs. destruct c as [[] [] [] [] [] [] [] []]; try discriminate Hs; repeat split. }
  assert (W : forall s, forallb partc s = true -> forallb (fun c => partc c || is c ":") s = true) by (intros s; rewrite !forallb_forall; intros Hs c Hc; rewrite (Hs c Hc); reflexivity).
  destruct i as [w|a k1 k2 b|a k1 q b k2 c|l|l]; cbn [item_ok print_item] in H |- *.
  - apply S, W, wordc_partc, print_word_wordc, H.
  - destruct H as [Ha Hb]. apply S. rewrite forallb_app. cbn [forallb]. rewrite !W by (first [apply first_partc; exact Ha|apply last_partc; exact Hb]). reflexivity.
  - destruct H as [Ha [Hb Hc]]. apply S. rewrite forallb_app. cbn [forallb]. rewrite forallb_app. cbn [forallb].
    rewrite (W (first_part a k1)) by (apply first_partc; exact Ha). rewrite (W (mid_part q b)) by (apply mid_partc; exact Hb). rewrite (W (last_part k2 _)) by (apply last_partc; exact Hc). reflexivity.
  - cbn [app]. rewrite <- !app_assoc. cbn [app]. apply split_top_open; [|exact E]. apply listed_nobracket, ints_words, H.
  - cbn [app]. rewrite <- !app_assoc. cbn [app]. apply split_top_open; [|exact E]. apply (listed_nobracket (fun t => print_word (WAt (fst t) (snd t)))), ats_words, H.
Qed.
Lemma entry_split e t p ps : entry_ok e -> split_top false t = p :: ps -> split_top false (print_entry e ++ t) = (print_entry e ++ p)%list :: ps.
Proof.
  destruct e as [n [q i]]. intros [Hn Hi] E. cbn [fst snd] in *. unfold print_entry. cbn [fst snd]. unfold padded at 2 4. rewrite <- !app_assoc.
  assert (B : forall k u v vs, split_top false u = v :: vs -> split_top false (blanks k ++ u) = (blanks k ++ v)%list :: vs).
  { intros k u v vs. apply split_top_plain. intros c Hc. pose proof (blanks_partc k) as P. rewrite forallb_forall in P. destruct (partc_facts c (P c Hc)) as [_ [_ [_ F]]]. exact F. }
  assert (T : split_top false (blanks (fst q) ++ print_item i ++ blanks (snd q) ++ t) = (blanks (fst q) ++ print_item i ++ blanks (snd q) ++ p)%list :: ps) by (apply B, item_split; [exact Hi|apply B, E]).
  destruct n as [[pn n]|]; [|exact T]. destruct (Hn pn n eq_refl) as [_ Nn]. apply split_top_plain; [|exact T]. intros c Hc. apply in_app_or in Hc. destruct Hc as [Hc|[<-|[]]]; [|repeat split].
  pose proof (padded_namec pn n Nn) as P. rewrite forallb_forall in P. destruct (namec_facts c (P c Hc)) as [F1 [_ [_ [F2 F3]]]]. repeat split; assumption.
Qed.
Lemma entry_no_score e c : entry_ok e -> In c (print_entry e) -> is c "_" = false.
Proof.
  destruct e as [n [q i]]. intros [Hn Hi] Hc. cbn [fst snd] in *. unfold print_entry in Hc. cbn [fst snd] in Hc. apply in_app_or in Hc. destruct Hc as [Hc|Hc].
  - destruct n as [[pn n]|]; [|destruct Hc]. destruct (Hn pn n eq_refl) as [_ Nn]. apply in_app_or in Hc. destruct Hc as [Hc|[<-|[]]]; [|reflexivity]. pose proof (padded_namec pn n Nn) as P. rewrite forallb_forall in P. apply (namec_facts c (P c Hc)).
  - pose proof (padded_itemc q _ (item_itemc i Hi)) as P. rewrite forallb_forall in P. apply (itemc_facts c (P c Hc)).
Qed.
Lemma all_no_score l : Forall entry_ok l -> forall c, In c (print_all l) -> is c "_" = false.
Proof.
  induction l as [|e l IH]; intros H c Hc; [destruct Hc|]. inversion H; subst. cbn [print_all] in Hc. destruct l as [|e' l]; [eapply entry_no_score; eassumption|].
  apply in_app_or in Hc. destruct Hc as [Hc|[<-|Hc]]; [eapply entry_no_score; eassumption|reflexivity|apply IH; assumption].
Qed.
Lemma split_all l : l <> [] -> Forall entry_ok l -> split_top false (print_all l) = map print_entry l.
Proof.
  induction l as [|e l IH]; intros N H; [congruence|]. inversion H as [|e' l' He Hl]; subst. cbn [print_all map]. destruct l as [|e' l].
  - pose proof (entry_split e [] [] [] He eq_refl) as S. rewrite !app_nil_r in S. exact S.
  - pose proof (entry_split e (","%char :: print_all (e' :: l)) [] (split_top false (print_all (e' :: l))) He eq_refl) as S. rewrite app_nil_r in S. rewrite S, IH by (first [discriminate|exact Hl]). reflexivity.
Qed.
(** Every item comes out in its place, with its name if it has one, and as what is written. *)
Theorem C89_text : forall l, l <> [] -> Forall entry_ok l -> parse_selection (print_all l) = map entry_of l.
Proof.
  intros l N H. unfold parse_selection, raw_list. rewrite replace_none by (apply all_no_score; exact H). rewrite split_all by assumption. rewrite map_map. apply map_ext_in. intros e He.
  apply entry_named. rewrite Forall_forall in H. apply H, He.
Qed.
Print Assumptions C89_text.

(** The names of axes may not have an underscore: the text is cut there. *)
Theorem C89_underscore_refuted : forall a b i, forallb namec a = true -> name_ok b -> item_ok i ->
  parse_selection (a ++ "_"%char :: b ++ "="%char :: print_item i) = [(None, std_sel a); (Some b, item_of i)].
Proof.
  intros a b i Ha Hb Hi. unfold parse_selection, raw_list. set (e := (Some ((0, 0), b), ((0, 0), i)) : entry).
  assert (He : entry_ok e) by (split; [intros p n E; cbn in E; congruence|exact Hi]). assert (P : (b ++ "="%char :: print_item i)%list = print_entry e) by (unfold print_entry, e; cbn [fst snd]; rewrite !padded_0, <- app_assoc; reflexivity).
  rewrite P. assert (A : forall c, In c a -> is c "," = false /\ is c "=" = false /\ is c "_" = false /\ is c "[" = false /\ is c "]" = false) by (intros c Hc; rewrite forallb_forall in Ha; apply namec_facts, Ha, Hc).
  change (a ++ "_"%char :: print_entry e)%list with (a ++ (["_"%char] ++ print_entry e))%list. rewrite !replace_app. rewrite (replace_none _ _ a) by (intros c Hc; apply A, Hc).
  rewrite (replace_none _ _ (print_entry e)) by (intros c Hc; eapply entry_no_score; eassumption). change (replace "_" "," ["_"%char]) with [","%char]. cbn [app].
  rewrite (split_top_plain false a (","%char :: print_entry e) [] (split_top false (print_entry e))) by (first [reflexivity|intros c Hc; destruct (A c Hc) as [F1 [_ [_ F2]]]; repeat split; tauto]).
  pose proof (split_all [e] ltac:(discriminate) (Forall_cons _ He (Forall_nil _))) as S. cbn [print_all map] in S. rewrite S. rewrite app_nil_r. cbn [map].
  rewrite (entry_named e He). unfold named. rewrite cut_none by (intros c Hc; apply A, Hc). reflexivity.
Qed.
Print Assumptions C89_underscore_refuted.
(** A comma at the end is not passed over: what comes after it is an error. *)
Theorem C89_trailing_refuted : forall l, l <> [] -> Forall entry_ok l -> parse_selection (print_all l ++ [","%char]) = (map entry_of l ++ [(None, Bad)])%list.
Proof.
  intros l N H. unfold parse_selection, raw_list. rewrite replace_none by (intros c Hc; apply in_app_or in Hc; destruct Hc as [Hc|[<-|[]]]; [eapply all_no_score; eassumption|reflexivity]).
  assert (S : split_top false (print_all l ++ [","%char]) = (map print_entry l ++ [[]])%list).
  { induction l as [|e l IH]; [congruence|]. inversion H as [|e' l' He Hl]; subst. cbn [print_all map]. destruct l as [|e' l].
    - pose proof (entry_split e [","%char] [] [[]] He eq_refl) as S. rewrite app_nil_r in S. exact S.
    - rewrite <- app_assoc. cbn [app]. pose proof (entry_split e (","%char :: print_all (e' :: l) ++ [","%char]) [] (split_top false (print_all (e' :: l) ++ [","%char])) He eq_refl) as S. rewrite app_nil_r in S.
      rewrite S, IH by (first [discriminate|exact Hl]). reflexivity. }
  rewrite S, map_app, map_map. f_equal. apply map_ext_in. intros e He. apply entry_named. rewrite Forall_forall in H. apply H, He.
Qed.
Print Assumptions C89_trailing_refuted.

(** Non-vacuity: a text with names, blanks, a slice by value, a list and a step. *)
Definition case_entries : list entry :=
  [ (Some ((1, 0), list_ascii_of_string "x"), ((0, 1), ISlice (Some (WAt (Num true [1; 2] (Some [5]) None) true)) 1 2 (Some (WReal (Num false [3] None (Some (false, [2])))))));
    (None, ((1, 0), IInts [((0, 1), (false, [4])); ((2, 0), (true, [1]))]));
    (Some ((0, 0), list_ascii_of_string "z"), ((0, 0), IStep None 0 (1, 1) None 0 (Some (true, [2])))) ].
Example C89_case_text : print_all case_entries = list_ascii_of_string " x=-12.5f :  3e2 , [4 ,  -1],z=:  :-2".
Proof. reflexivity. Qed.
Example C89_case_ok : Forall entry_ok case_entries.
Proof.
  assert (D : forall l, l <> [] -> forallb (fun d => d <? 10) l = true -> digits_ok l) by (intros l Hn Hl; split; [exact Hn|]; apply Forall_forall; intros d Hd; rewrite forallb_forall in Hl; specialize (Hl d Hd); lia).
  assert (X : name_ok (list_ascii_of_string "x") /\ name_ok (list_ascii_of_string "z")) by (repeat split).
  unfold case_entries. apply Forall_cons; [|apply Forall_cons; [|apply Forall_cons; [|apply Forall_nil]]].
  - split; [intros p n E; cbn in E; inversion E; subst; apply X|]. cbn [snd fst item_ok]. split; intros w E; inversion E; subst; cbn [word_ok].
    + split; [apply D; [discriminate|reflexivity]|]. split; [intros b Eb; cbn in Eb; inversion Eb; subst; repeat constructor; lia|discriminate].
    + split; [|intros [_ F]; discriminate F]. split; [apply D; [discriminate|reflexivity]|]. split; [discriminate|]. intros e Ee. cbn in Ee. inversion Ee; subst. apply D; [discriminate|reflexivity].
  - split; [discriminate|]. cbn [snd fst item_ok]. split; [discriminate|]. apply Forall_cons; [|apply Forall_cons; [|apply Forall_nil]]; apply D; first [discriminate|reflexivity].
  - split; [intros p n E; cbn in E; inversion E; subst; apply X|]. cbn [snd fst item_ok]. repeat split; intros w E; cbn in E; try discriminate E. inversion E; subst. apply D; [discriminate|reflexivity].
Qed.
Example C89_case_meaning : map snd (parse_selection (list_ascii_of_string " x=-12.5F :  3e2 , [4 ,  -1],z=:  :-2")) =
  [Slice (VAt (num_of (Num true [1; 2] (Some [5]) None))) (VAt (num_of (Num false [3] None (Some (false, [2]))))) VNone; One (VInts [4; -1]%Z); Slice VNone VNone (VInt (-2))].
Proof. vm_compute. reflexivity. Qed.
