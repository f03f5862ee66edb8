(** C94: the parameters in the log of an OpenGGCM run. *)
From Verif Require Import TabModel TabProps SelTextModel SelTextProps LogModel.
From Coq Require Import String Ascii List Bool Arith ZArith QArith Lia ZifyBool ZifyNat.
Import ListNotations.
Local Open Scope nat_scope.

(** ** how a log is written, and what it says *)
(** A number is written as in C89: a sign and digits; or with a dot or an exponent. *)
Inductive lit := LInt (i : int_lit) | LReal (x : SelTextProps.num).
Definition print_lit (l : lit) : list ascii := match l with LInt i => print_int i | LReal x => print_num x end.
Definition lit_ok (l : lit) : Prop := match l with LInt i => digits_ok (snd i) | LReal x => num_ok x /\ ~ (SelTextProps.after x = None /\ power x = None) end.
Definition lit_of (l : lit) : entry := match l with LInt i => EInt (int_of i) | LReal x => EFloat (num_of x) end.
Definition no_exp (l : lit) : Prop := match l with LInt _ => True | LReal x => power x = None end.
(** A list of numbers: commas between them, blanks before and after each comma. *)
Fixpoint print_list (w : lit) (l : list (nat * nat * lit)) : list ascii :=
  match l with [] => print_lit w | (a, b, v) :: r => (print_lit w ++ blanks a ++ ","%char :: blanks b ++ print_list v r)%list end.
Inductive val := VLit (l : lit) | VList (w : lit) (l : list (nat * nat * lit)) | VWord (t : list ascii).
Definition print_val (v : val) : list ascii := match v with VLit l => print_lit l | VList w l => print_list w l | VWord t => t end.
(** letters, digits and _ *)
Definition name_char (c : ascii) : bool := existsb (is c) (chars "abcdefghijklmnopqrstuvwxyzABCDEFGHIJKLMNOPQRSTUVWXYZ0123456789_").
(** letters and signs that can not be in a number, nan or infinity *)
Definition hard (c : ascii) : bool := negb (existsb (is c) (chars "0123456789.+-_ aefintyAEFINTY")).
Definition free_of (d : ascii) (t : list ascii) : Prop := ~ In d t.
Definition val_ok (v : val) : Prop :=
  match v with
  | VLit l => lit_ok l
  | VList w l => lit_ok w /\ no_exp w /\ l <> [] /\ Forall (fun p => lit_ok (snd p)) l
  | VWord t => tight t /\ free_of "|" t /\ free_of "," t /\ free_of ":" t /\ exists c, In c t /\ hard c = true
  end.
Definition numbers (l : list entry) : kind := if forallb (fun e => match e with EInt _ => true | _ => false end) l then KInt else KFloat.
Definition val_of (v : val) : param :=
  match v with
  | VLit (LInt i) => PInt (int_of i)
  | VLit (LReal x) => PFloat (num_of x)
  | VList w l => let m := lit_of w :: map (fun p => lit_of (snd p)) l in PArray (numbers m) m
  | VWord t => PText t
  end.
(** A line which begins a report of the simulation. *)
Definition step_line (t : list ascii) : Prop := exists n r, t = (blanks n ++ chars "cp=" ++ r)%list \/ t = (blanks n ++ chars "step=" ++ r)%list.
(** The lines about a class: a parameter and its value, the type, something else. *)
Inductive row := RParam (n a b m : nat) (k : list ascii) (v : val) | RType (a b : nat) (t : list ascii) | RNote (t : list ascii).
Definition print_row (r : row) : list ascii :=
  match r with
  | RParam n a b m k v => padded (n, m) (k ++ blanks a ++ "|"%char :: blanks b ++ print_val v)
  | RType a b t => (repeat "-"%char (S a) ++ "+"%char :: repeat "-"%char (S b) ++ chars " type -- " ++ t)%list
  | RNote t => t
  end.
Definition row_ok (r : row) : Prop :=
  ~ step_line (print_row r) /\
  match r with
  | RParam _ _ _ _ k v => k <> [] /\ tight k /\ free_of "|" k /\ val_ok v
  | RType _ _ t => t <> [] /\ forallb name_char t = true
  | RNote t => free_of "|" t /\ free_of "+" t /\ exists c, In c t /\ c <> " "%char
  end.
Definition says (c : list ascii) (r : row) : list (list ascii * param) :=
  match r with RParam _ _ _ _ k v => [((c ++ chars "_" ++ k)%list, val_of v)] | RType _ _ t => [((c ++ chars "_type")%list, PText t)] | RNote _ => [] end.
Definition classes : list (list ascii) := map chars ["ggcm_mhd"; "mrc_domain"; "mrc_crds"; "ggcm_mhd_ic"; "ggcm_dipole"; "ggcm_mhd_step"; "ggcm_mhd_fld"]%string.
(** A log: sections about these classes, with two lines of headings and an empty line at the end; sections about other classes begin in the same way; any other lines. *)
Definition print_class (n : nat) (c : list ascii) : list ascii := (repeat "="%char (S n) ++ chars " class == " ++ c)%list.
Inductive block := BSection (n : nat) (c h1 h2 : list ascii) (rows : list row) (m : nat) | BClass (n : nat) (c : list ascii) | BOther (t : list ascii).
Definition print_block (b : block) : list (list ascii) :=
  match b with BSection n c h1 h2 rows m => print_class n c :: h1 :: h2 :: map print_row rows ++ [blanks m] | BClass n c => [print_class n c] | BOther t => [t] end.
Definition block_ok (b : block) : Prop :=
  match b with
  | BSection n c h1 h2 rows m => In c classes /\ ~ step_line h1 /\ ~ step_line h2 /\ Forall row_ok rows
  | BClass n c => c <> [] /\ tight c /\ ~ In c classes
  | BOther t => ~ step_line t /\ forall n r, t <> (blanks n ++ "="%char :: r)%list
  end.
Definition block_says (b : block) : list (list ascii * param) := match b with BSection n c h1 h2 rows m => flat_map (says c) rows | _ => [] end.
(** the value given last *)
Definition last_of (k : list ascii) (l : list (list ascii * param)) : option param := fold_left (fun o p => if list_eq_dec ascii_dec (fst p) k then Some (snd p) else o) l None.
(** after the first report of the simulation anything may follow *)
Definition tail_ok (t : list (list ascii)) : Prop := match t with [] => True | l :: _ => step_line l end.

(** ** blanks and the ends of lines *)
Lemma is_true c d : is c d = true <-> c = d.
Proof. unfold is. destruct (ascii_dec c d); split; congruence. Qed.
Lemma is_refl c : is c c = true.
Proof. apply is_true. reflexivity. Qed.
Lemma is_false c d : is c d = false <-> c <> d.
Proof. unfold is. destruct (ascii_dec c d); split; congruence. Qed.
Lemma space_char c : is_space c = true -> c = " "%char.
Proof. unfold is_space, code. intros H. apply Nat.eqb_eq in H. rewrite <- (ascii_nat_embedding c), H. reflexivity. Qed.
Lemma skip_space s : exists n, s = (blanks n ++ skip is_space s)%list.
Proof. induction s as [|c s [n IH]]; [exists 0; reflexivity|]. cbn [skip]. destruct (is_space c) eqn:E; [|exists 0; reflexivity]. exists (S n). apply space_char in E. subst c. cbn [blanks repeat app]. f_equal. exact IH. Qed.
Lemma strip_parts s : exists p, s = padded p (strip s).
Proof.
  destruct (skip_space s) as [n En]. destruct (skip_space (rev (skip is_space s))) as [m Em]. exists (n, m). unfold padded, strip. cbn [fst snd]. rewrite En at 1. f_equal.
  apply (f_equal (@rev ascii)) in Em. rewrite rev_involutive, rev_app_distr, rev_blanks in Em. exact Em.
Qed.
Lemma after_some w : forall s r, LogModel.after w s = Some r -> s = (w ++ r)%list.
Proof. induction w as [|c w IH]; intros s r H; cbn in H; [injection H as <-; reflexivity|]. destruct s as [|d s]; [discriminate|]. destruct (is c d) eqn:E; [|discriminate]. apply is_true in E. subst d. cbn. f_equal. apply IH, H. Qed.
Lemma after_app w r : after w (w ++ r) = Some r.
Proof. induction w as [|c w IH]; [reflexivity|]. cbn. rewrite is_refl. exact IH. Qed.
Lemma no_step t : ~ step_line t -> timestep t = false.
Proof.
  intros N. destruct (timestep t) eqn:E; [|reflexivity]. exfalso. apply N. unfold timestep, begins in E. destruct (strip_parts t) as [[n m] P]. unfold padded in P. cbn [fst snd] in P. apply orb_true_iff in E as [E|E].
  - destruct (after (chars "cp=") (strip t)) as [r|] eqn:A; [|discriminate]. apply after_some in A. rewrite A in P. exists n, (r ++ blanks m)%list. left. rewrite P at 1. rewrite <- app_assoc. reflexivity.
  - destruct (after (chars "step=") (strip t)) as [r|] eqn:A; [|discriminate]. apply after_some in A. rewrite A in P. exists n, (r ++ blanks m)%list. right. rewrite P at 1. rewrite <- app_assoc. reflexivity.
Qed.
Lemma skip_end p s x : p x = false -> exists r, skip p (s ++ [x]) = (r ++ [x])%list.
Proof. intros H. induction s as [|c s [r IH]]; cbn [app skip]; [rewrite H; exists []; reflexivity|]. destruct (p c); [exists r; exact IH|exists (c :: s); reflexivity]. Qed.
Lemma strip_head w x r n : starts_tight (w ++ [x]) -> is_space x = false -> exists r', strip (blanks n ++ w ++ x :: r) = (w ++ x :: r')%list.
Proof.
  intros T X. unfold strip, blanks. rewrite skip_blanks. replace (w ++ x :: r)%list with ((w ++ [x]) ++ r)%list by (rewrite <- app_assoc; reflexivity). rewrite (skip_tight ((w ++ [x]) ++ r)) by (destruct w as [|y w]; cbn in *; exact T).
  rewrite rev_app_distr. assert (G : exists q, skip is_space (rev r ++ rev (w ++ [x])) = (q ++ rev (w ++ [x]))%list).
  { rewrite rev_app_distr. cbn [rev app]. induction (rev r) as [|c q IH]; cbn [app skip]; [rewrite X; exists []; reflexivity|]. destruct (is_space c); [exact IH|exists (c :: q); reflexivity]. }
  destruct G as [q ->]. rewrite rev_app_distr, rev_involutive, <- app_assoc. exists (rev q). reflexivity.
Qed.
Lemma step_true t : step_line t -> timestep t = true.
Proof.
  intros [n [r [-> | ->]]]; unfold timestep, begins.
  - destruct (strip_head (chars "cp") "=" r n eq_refl eq_refl) as [r' E]. change (chars "cp=" ++ r)%list with (chars "cp" ++ "="%char :: r)%list. rewrite E. reflexivity.
  - destruct (strip_head (chars "step") "=" r n eq_refl eq_refl) as [r' E]. change (chars "step=" ++ r)%list with (chars "step" ++ "="%char :: r)%list. rewrite E. apply orb_true_r.
Qed.
Lemma tight_app a b : tight a -> tight b -> a <> [] -> b <> [] -> forall m, tight (a ++ m ++ b).
Proof.
  intros [A1 A2] [B1 B2] Na Nb m. split; [destruct a as [|c a]; [congruence|exact A1]|]. rewrite !rev_app_distr, <- app_assoc. destruct (rev b) as [|c r] eqn:E; [apply (f_equal (@rev ascii)) in E; rewrite rev_involutive in E; exfalso; exact (Nb E)|exact B2].
Qed.

(** ** values *)
Lemma in_skip p c s : In c s -> p c = false -> In c (skip p s).
Proof. induction s as [|d s IH]; intros H N; [destruct H|]. cbn [skip]. destruct (p d) eqn:E; [|exact H]. destruct H as [<-|H]; [congruence|apply IH; assumption]. Qed.
Lemma in_strip c s : In c s -> is_space c = false -> In c (strip s).
Proof. intros H N. unfold strip. rewrite <- in_rev. apply in_skip; [|exact N]. rewrite <- in_rev. apply in_skip; assumption. Qed.
Definition bad (c : ascii) : Prop := is_digit c = false /\ is_space c = false /\ is c "." = false /\ is c "-" = false /\ is c "+" = false /\ is (lower c) "e" = false.
Lemma in_sign c s : In c s -> is c "-" = false -> is c "+" = false -> In c (snd (sign s)).
Proof. intros H N1 N2. destruct s as [|d s]; [destruct H|]. cbn [sign]. destruct (is d "-") eqn:E1; [destruct H as [<-|H]; [congruence|exact H]|]. destruct (is d "+") eqn:E2; [destruct H as [<-|H]; [congruence|exact H]|exact H]. Qed.
Lemma bad_int c s : In c s -> bad c -> parse_int s = None.
Proof.
  intros H (D & S & _ & M & P & _). unfold parse_int. pose proof (in_sign c (strip s) (in_strip c s H S) M P) as I. destruct (sign (strip s)) as [g r]. cbn [snd] in I. destruct r as [|d r]; [destruct I|].
  destruct (forallb is_digit (d :: r)) eqn:F; [|reflexivity]. rewrite forallb_forall in F. specialize (F c I). congruence.
Qed.
Lemma bad_float c s : In c s -> bad c -> parse_float s = None.
Proof.
  intros H B. pose proof B as (D & S & T & M & P & E). unfold parse_float. pose proof (in_sign c (strip s) (in_strip c s H S) M P) as I. destruct (sign (strip s)) as [g r]. cbn [snd] in I. cbv zeta.
  apply (in_skip is_digit) in I; [|exact D].
  assert (Sc : forall q t, In c t -> scaled q t = None). { intros q t Ht. destruct t as [|d t]; [destruct Ht|]. cbn [scaled]. destruct (is (lower d) "e") eqn:Ed; [|reflexivity]. destruct Ht as [->|Ht]; [congruence|]. rewrite (bad_int c t Ht B). reflexivity. }
  destruct (skip is_digit r) as [|d r']; [destruct I|]. destruct (is d ".") eqn:Ed.
  - destruct I as [->|I]; [congruence|]. apply (in_skip is_digit) in I; [|exact D]. rewrite (Sc _ _ I). destruct (take is_digit r); [destruct (take is_digit r')|]; reflexivity.
  - rewrite (Sc _ _ I). destruct (take is_digit r); reflexivity.
Qed.
Lemma bad_word c s (w : string) : In c s -> is_space c = false -> is c "-" = false -> is c "+" = false -> ~ In (lower c) (chars w) -> text_is (map lower (snd (sign (strip s)))) w = false.
Proof. intros H S M P N. unfold text_is. destruct (list_eq_dec _ _ _) as [E|]; [|reflexivity]. exfalso. apply N. rewrite <- E. apply in_map, in_sign; [apply in_strip; assumption|exact M|exact P]. Qed.
Definition all_ascii (P : ascii -> bool) : bool := forallb (fun n => P (ascii_of_nat n)) (seq 0 256).
Lemma for_all P : all_ascii P = true -> forall c, P c = true.
Proof. intros H c. unfold all_ascii in H. rewrite forallb_forall in H. specialize (H (nat_of_ascii c)). rewrite ascii_nat_embedding in H. apply H, in_seq. split; [lia|]. apply nat_ascii_bounded. Qed.
Definition badb (c : ascii) : bool := negb (is_digit c) && negb (is_space c) && negb (is c ".") && negb (is c "-") && negb (is c "+") && negb (is (lower c) "e").
Lemma hard_facts c : hard c = true -> bad c /\ forall w, In w ["nan"; "inf"; "infinity"]%string -> ~ In (lower c) (chars w).
Proof.
  intros H. assert (F : implb (hard c) (badb c && negb (existsb (is (lower c)) (chars "nanfity"))) = true) by (revert c H; intros c _; revert c; apply for_all; vm_compute; reflexivity).
  rewrite H in F. cbn [implb] in F. apply andb_true_iff in F as [F1 F2]. split.
  - unfold badb in F1. repeat rewrite andb_true_iff in F1. repeat rewrite negb_true_iff in F1. unfold bad. tauto.
  - intros w Hw X. apply negb_true_iff in F2. assert (G : existsb (is (lower c)) (chars "nanfity") = true).
    { apply existsb_exists. exists (lower c). split; [|apply is_refl]. cbn in Hw |- *. destruct Hw as [<-|[<-|[<-|[]]]]; cbn in X; tauto. }
    congruence.
Qed.
Lemma hard_finite c s : In c s -> hard c = true -> nonfinite s = false.
Proof. intros H Hc. destruct (hard_facts c Hc) as [(D & S & T & M & P & E) W]. unfold nonfinite. cbv zeta. rewrite !(bad_word c s) by (first [assumption|apply W; cbn; tauto]). reflexivity. Qed.
Lemma skip_no q (d : ascii) t : ~ In d t -> ~ In d (skip q t).
Proof. induction t as [|x t IH]; intros H; [exact H|]. cbn [skip]. destruct (q x); [apply IH; intros X; apply H; right; exact X|exact H]. Qed.
Lemma token_no p g d s t : token p g s = Some t -> ~ In d s -> ~ In d t.
Proof.
  unfold token. cbv zeta. intros H N. assert (G : exists r, Some (skip p r) = Some t /\ ~ In d r).
  { destruct s as [|c s]; [cbn in H; discriminate H|]. destruct (g && is c "-"); [exists s|exists (c :: s)]; match type of H with match ?x with _ => _ end = _ => destruct x; [discriminate H|] end; (split; [exact H|]); [intros X; apply N; right; exact X|exact N]. }
  destruct G as [r [E Nr]]. injection E as <-. apply skip_no, Nr.
Qed.
Lemma two_no p g d s : is d d = true -> ~ In d s -> two p g d s = false.
Proof.
  intros R N. unfold two. destruct (token p g s) as [t|] eqn:T; [|reflexivity]. pose proof (skip_no is_space d t (token_no p g d s t T N)) as G. destruct (skip is_space t) as [|c u]; [reflexivity|]. destruct (is c d) eqn:E; [|reflexivity]. apply is_true in E. subst c. exfalso. apply G. left. reflexivity.
Qed.
Lemma lit_wordc w : lit_ok w -> forallb wordc (print_lit w) = true.
Proof. destruct w as [i|x]; intros H; [apply print_int_wordc, H|apply print_num_wordc, H]. Qed.
Lemma lit_tight w : lit_ok w -> tight (print_lit w).
Proof. intros H. apply nospace_tight, lit_wordc, H. Qed.
Lemma lit_ne w : lit_ok w -> print_lit w <> [].
Proof. destruct w as [[g i]|x]; intros H E; cbn in E. - unfold print_int in E. apply app_eq_nil in E as [_ E]. cbn in E. destruct H as [Hn _]. apply (text_ne _ Hn), E. - unfold print_num in E. apply app_eq_nil in E as [_ E]. apply app_eq_nil in E as [E _]. destruct H as [[[Hn _] _] _]. apply (text_ne _ Hn), E. Qed.
Lemma real_not_int x : num_ok x -> ~ (SelTextProps.after x = None /\ power x = None) -> parse_int (print_num x) = None.
Proof.
  intros (Ha & Hb & He) N. unfold print_num. apply parse_int_not; [exact Ha| |].
  - pose proof (print_num_wordc x (conj Ha (conj Hb He))) as W. unfold print_num in W. rewrite !forallb_app in W. apply andb_true_iff in W as [_ W]. apply andb_true_iff in W as [_ W]. rewrite forallb_app. exact W.
  - destruct (SelTextProps.after x) as [b|]; [reflexivity|]. destruct (power x) as [e|]; [reflexivity|]. exfalso. apply N. split; reflexivity.
Qed.
Lemma strip_strip_int p s : tight s -> parse_int (padded p s) = parse_int s.
Proof. intros T. unfold parse_int. rewrite strip_padded, strip_tight by exact T. reflexivity. Qed.
Lemma strip_strip_float p s : tight s -> parse_float (padded p s) = parse_float s.
Proof. intros T. unfold parse_float. rewrite strip_padded, strip_tight by exact T. reflexivity. Qed.
Lemma entry_lit p w : lit_ok w -> parse_entry (padded p (print_lit w)) = lit_of w.
Proof.
  intros H. pose proof (lit_tight w H) as T. unfold parse_entry. rewrite strip_strip_int, strip_strip_float by exact T. destruct w as [i|x]; cbn [print_lit lit_of] in *.
  - rewrite parse_int_print by exact H. reflexivity.
  - destruct H as [H N]. rewrite real_not_int, parse_float_print by assumption. reflexivity.
Qed.
Lemma lit_value w : lit_ok w -> parse_value (print_lit w) = val_of (VLit w).
Proof. intros H. unfold parse_value. destruct w as [i|x]; cbn [print_lit val_of]. - rewrite parse_int_print by exact H. reflexivity. - destruct H as [H N]. rewrite real_not_int, parse_float_print by assumption. reflexivity. Qed.
Lemma wordc_no_comma s : forallb wordc s = true -> forall c, In c s -> is c "," = false.
Proof. intros H c Hc. rewrite forallb_forall in H. apply (wordc_facts c (H c Hc)). Qed.
Lemma blanks_no n c : In c (blanks n) -> c = " "%char.
Proof. intros H. apply repeat_spec in H. exact H. Qed.
Lemma split_list l : forall k w, lit_ok w -> Forall (fun p => lit_ok (snd p)) l -> map parse_entry (split_on "," (blanks k ++ print_list w l)) = lit_of w :: map (fun p => lit_of (snd p)) l.
Proof.
  induction l as [|[[a b] v] l IH]; intros k w Hw Hl; cbn [print_list].
  - rewrite split_on_none by (intros c Hc; apply in_app_or in Hc as [Hc|Hc]; [apply blanks_no in Hc; subst; reflexivity|apply (wordc_no_comma _ (lit_wordc w Hw) c Hc)]). cbn [map]. f_equal.
    replace (blanks k ++ print_lit w)%list with (padded (k, 0) (print_lit w)) by (unfold padded; cbn [fst snd blanks repeat]; rewrite app_nil_r; reflexivity). apply entry_lit, Hw.
  - inversion Hl as [|x y Hv Hr]; subst. cbn [snd] in Hv. replace (blanks k ++ print_lit w ++ blanks a ++ ","%char :: blanks b ++ print_list v l)%list with (padded (k, a) (print_lit w) ++ ","%char :: blanks b ++ print_list v l)%list by (unfold padded; cbn [fst snd]; rewrite <- !app_assoc; reflexivity).
    rewrite split_on_app; [|intros c Hc; unfold padded in Hc; apply in_app_or in Hc as [Hc|Hc]; [apply blanks_no in Hc; subst; reflexivity|apply in_app_or in Hc as [Hc|Hc]; [apply (wordc_no_comma _ (lit_wordc w Hw) c Hc)|apply blanks_no in Hc; subst; reflexivity]]|reflexivity].
    cbn [map snd]. rewrite entry_lit by exact Hw. f_equal. apply IH; assumption.
Qed.
Lemma list_tight l : forall w, lit_ok w -> Forall (fun p => lit_ok (snd p)) l -> tight (print_list w l) /\ print_list w l <> [].
Proof.
  induction l as [|[[a b] v] l IH]; intros w Hw Hl; cbn [print_list]; [split; [apply lit_tight, Hw|apply lit_ne, Hw]|]. inversion Hl as [|x y Hv Hr]; subst. destruct (IH v Hv Hr) as [T N]. split.
  - replace (print_lit w ++ blanks a ++ ","%char :: blanks b ++ print_list v l)%list with (print_lit w ++ (blanks a ++ ","%char :: blanks b) ++ print_list v l)%list by (rewrite <- !app_assoc; reflexivity). apply tight_app; [apply lit_tight, Hw|exact T|apply lit_ne, Hw|exact N].
  - intros E. apply app_eq_nil in E as [E _]. apply (lit_ne w Hw E).
Qed.
(** how a number begins *)
Lemma lit_shape w : lit_ok w -> exists g d r, print_lit w = (minus g ++ char_of d :: r)%list /\ d < 10 /\ (no_exp w -> forallb numeric r = true).
Proof.
  assert (D : forall l, Forall (fun d => d < 10) l -> forallb numeric (TabProps.text l) = true) by (intros l Hl; pose proof (text_digits l Hl) as T; rewrite forallb_forall in T |- *; intros c Hc; unfold numeric; rewrite (T c Hc); reflexivity).
  destruct w as [[g i]|x]; intros H; cbn [print_lit lit_ok no_exp] in *.
  - destruct H as [Hn Hd]. cbn [snd] in *. destruct i as [|d i]; [congruence|]. inversion Hd as [|y z Hy Hz]; subst. exists g, d, (TabProps.text i). repeat split; [exact Hy|]. intros _. apply D, Hz.
  - destruct H as [([Hn Hd] & Hb & He) N]. destruct (before x) as [|d i] eqn:Eb; [congruence|]. inversion Hd as [|y z Hy Hz]; subst. unfold print_num. rewrite Eb. cbn [TabProps.text map app]. eexists (neg x), d, _. split; [reflexivity|]. split; [exact Hy|]. intros P. rewrite P, app_nil_r, forallb_app. fold (TabProps.text i). rewrite D by exact Hz.
    destruct (SelTextProps.after x) as [b|]; [|reflexivity]. cbn [forallb]. rewrite D by (apply Hb; reflexivity). reflexivity.
Qed.
Lemma num_char d : d < 10 -> numeric (char_of d) = true /\ is (char_of d) "-" = false /\ is_space (char_of d) = false.
Proof. intros H. do 10 (destruct d as [|d]; [repeat split; reflexivity|]). lia. Qed.
Lemma token_lit w rest : lit_ok w -> exists t, token numeric true (print_lit w ++ rest) = Some t.
Proof.
  intros H. destruct (lit_shape w H) as (g & d & r & -> & Hd & _). destruct (num_char d Hd) as (N & M & _). unfold token. destruct g; cbn [minus app].
  - change (true && is "-" "-") with true. cbn iota. cbn [take skip]. rewrite N. eexists. reflexivity.
  - rewrite M. cbn [andb take skip]. rewrite N. eexists. reflexivity.
Qed.
Lemma token_first w c rest : lit_ok w -> no_exp w -> numeric c = false -> token numeric true (print_lit w ++ c :: rest) = Some (c :: rest).
Proof.
  intros H P Nc. destruct (lit_shape w H) as (g & d & r & -> & Hd & Nr). specialize (Nr P). destruct (num_char d Hd) as (N & M & _).
  assert (T : take numeric (char_of d :: r ++ c :: rest) <> [] /\ skip numeric (char_of d :: r ++ c :: rest) = c :: rest). { cbn [take skip]. rewrite N. split; [discriminate|]. destruct (take_all numeric r (c :: rest) Nr) as [_ ->]. cbn [skip]. rewrite Nc. reflexivity. }
  destruct T as [T1 T2]. unfold token. destruct g; cbn [minus app].
  - change (true && is "-" "-") with true. cbn iota. rewrite T2. destruct (take numeric _); [congruence|reflexivity].
  - rewrite M. cbn [andb]. rewrite T2. destruct (take numeric _); [congruence|reflexivity].
Qed.
Lemma lit_start w t : lit_ok w -> skip is_space (print_lit w ++ t) = (print_lit w ++ t)%list.
Proof. intros H. pose proof (lit_tight w H) as [T _]. pose proof (lit_ne w H) as N. apply skip_tight. destruct (print_lit w); [congruence|exact T]. Qed.
Lemma list_two l w : lit_ok w -> no_exp w -> l <> [] -> Forall (fun p => lit_ok (snd p)) l -> two numeric true "," (print_list w l) = true.
Proof.
  intros Hw P Hl Hf. destruct l as [|[[a b] v] l]; [congruence|]. inversion Hf as [|x y Hv Hr]; subst. cbn [snd] in Hv. cbn [print_list]. unfold two.
  assert (T : token numeric true (print_lit w ++ blanks a ++ ","%char :: blanks b ++ print_list v l) = Some (blanks a ++ ","%char :: blanks b ++ print_list v l)%list) by (destruct a as [|a]; apply token_first; first [assumption|reflexivity]).
  rewrite T. unfold blanks at 1. rewrite skip_blanks. cbn [skip]. change (is_space ",") with false. cbn iota. change (is "," ",") with true. cbn [andb]. unfold blanks. rewrite skip_blanks.
  destruct l as [|[[a' b'] v'] l]; cbn [print_list]; [rewrite <- (app_nil_r (print_lit v))|]; rewrite lit_start by exact Hv; match goal with |- context [token numeric true (print_lit v ++ ?r)] => destruct (token_lit v r Hv) as [t ->] end; reflexivity.
Qed.
Lemma comma_hard : hard "," = true. Proof. reflexivity. Qed.
Lemma value_ok v : val_ok v -> parse_value (print_val v) = val_of v.
Proof.
  destruct v as [w|w l|t]; cbn [print_val val_ok]; intros H.
  - apply lit_value, H.
  - destruct H as (Hw & P & Hl & Hf). destruct (list_tight l w Hw Hf) as [T _]. assert (I : In ","%char (print_list w l)) by (destruct l as [|[[a b] v] l]; [congruence|]; cbn [print_list]; apply in_or_app; right; apply in_or_app; right; left; reflexivity).
    unfold parse_value. rewrite (bad_int _ _ I (proj1 (hard_facts _ comma_hard))), (bad_float _ _ I (proj1 (hard_facts _ comma_hard))), (hard_finite _ _ I comma_hard). cbv zeta. rewrite strip_tight by exact T. rewrite list_two by assumption.
    pose proof (split_list l 0 w Hw Hf) as S. cbn [blanks repeat app] in S. rewrite S. cbn [val_of]. f_equal. unfold kind_of, numbers. set (m := lit_of w :: _).
    assert (A : Forall (fun e => match e with EText _ => False | _ => True end) m). { apply Forall_forall. intros e He. unfold m in He. destruct He as [<-|He]; [destruct w; exact Logic.I|]. apply in_map_iff in He as [p [<- _]]. destruct (snd p); exact Logic.I. }
    clearbody m. clear -A. induction m as [|e m IH]; [reflexivity|]. inversion A as [|x y Hx Hy]; subst. specialize (IH Hy). cbn [existsb forallb]. destruct e; [| |destruct Hx]; cbn [orb andb] in *; [exact IH|]. destruct (existsb (fun e => match e with EText _ => true | _ => false end) m) eqn:E; [|reflexivity]. destruct (forallb _ m); discriminate IH.
  - destruct H as (T & _ & N1 & N2 & c & Hc & Hd). destruct (hard_facts c Hd) as [B _]. unfold parse_value. rewrite (bad_int c t Hc B), (bad_float c t Hc B), (hard_finite c t Hc Hd). cbv zeta. rewrite strip_tight by exact T. rewrite !two_no by (first [reflexivity|assumption]). reflexivity.
Qed.
Lemma wordc_bar s : forallb wordc s = true -> ~ In "|"%char s.
Proof. intros H X. rewrite forallb_forall in H. specialize (H _ X). discriminate H. Qed.
Lemma val_facts v : val_ok v -> tight (print_val v) /\ print_val v <> [] /\ ~ In "|"%char (print_val v).
Proof.
  destruct v as [w|w l|t]; cbn [print_val val_ok]; intros H.
  - split; [apply lit_tight, H|]. split; [apply lit_ne, H|]. apply wordc_bar, lit_wordc, H.
  - destruct H as (Hw & _ & _ & Hf). destruct (list_tight l w Hw Hf) as [T N]. split; [exact T|]. split; [exact N|]. clear T N. revert w Hw. induction l as [|[[a b] v] l IH]; intros w Hw X; cbn [print_list] in X; [apply (wordc_bar _ (lit_wordc w Hw) X)|].
    inversion Hf as [|x y Hv Hr]; subst. apply in_app_or in X as [X|X]; [apply (wordc_bar _ (lit_wordc w Hw) X)|]. apply in_app_or in X as [X|X]; [apply blanks_no in X; discriminate X|]. destruct X as [X|X]; [discriminate X|]. apply in_app_or in X as [X|X]; [apply blanks_no in X; discriminate X|]. apply (IH Hr v Hv X).
  - destruct H as (T & N & _ & _ & c & Hc & _). split; [exact T|]. split; [intros E; rewrite E in Hc; destruct Hc|exact N].
Qed.
Theorem C94_values : forall v p, val_ok v -> parse_value (strip (padded p (print_val v))) = val_of v.
Proof. intros v p H. destruct (val_facts v H) as [T _]. rewrite strip_padded by exact T. apply value_ok, H. Qed.
Print Assumptions C94_values.

(** ** lines *)
Lemma in_unstrip c s : In c (strip s) -> In c s.
Proof. destruct (strip_parts s) as [p E]. intros H. rewrite E. unfold padded. apply in_or_app. right. apply in_or_app. left. exact H. Qed.
Lemma bar_none s : ~ In "|"%char s -> parse_param s = None.
Proof. intros H. unfold parse_param. rewrite split_on_none by (intros c Hc; apply is_false; intros ->; exact (H Hc)). reflexivity. Qed.
Lemma name_word c : name_char c = word_char c.
Proof. apply eqb_prop. revert c. apply for_all. vm_compute. reflexivity. Qed.
Lemma type_print a b t : t <> [] -> forallb word_char t = true -> type_line (print_row (RType a b t)) = Some t.
Proof.
  intros Hn Ht. cbn [print_row]. unfold type_line. set (d := fun c => is c "-"). assert (D : forall n, forallb d (repeat "-"%char n) = true) by (induction n as [|n IH]; [reflexivity|exact IH]).
  destruct (take_all d (repeat "-"%char (S a)) ("+"%char :: repeat "-"%char (S b) ++ chars " type -- " ++ t) (D (S a))) as [-> ->]. cbn [repeat app skip take]. change (d "+"%char) with false. change (is "+" "+") with true. cbn iota.
  change ("-"%char :: repeat "-"%char b ++ chars " type -- " ++ t)%list with (repeat "-"%char (S b) ++ chars " type -- " ++ t)%list.
  destruct (take_all d (repeat "-"%char (S b)) (chars " type -- " ++ t) (D (S b))) as [-> ->]. change (skip d (chars " type -- " ++ t)) with (chars " type -- " ++ t)%list. rewrite after_app. cbn [repeat app].
  destruct (take_all word_char t [] Ht) as [E _]. rewrite app_nil_r in E. rewrite E. cbn [take]. rewrite app_nil_r. destruct t; [congruence|reflexivity].
Qed.
Lemma word_char_space c : word_char c = true -> is_space c = false /\ c <> "|"%char.
Proof. intros H. assert (F : implb (word_char c) (negb (is_space c) && negb (is c "|")) = true) by (clear H; revert c; apply for_all; vm_compute; reflexivity). rewrite H in F. cbn [implb] in F. apply andb_true_iff in F as [F1 F2]. apply negb_true_iff in F1, F2. split; [exact F1|]. apply is_false, F2. Qed.
Lemma type_plus s t : type_line s = Some t -> In "+"%char s.
Proof.
  unfold type_line. intros H. destruct (take (fun c => is c "-") s); [discriminate|]. destruct (skip (fun c => is c "-") s) as [|c r] eqn:E; [discriminate|]. destruct (is c "+") eqn:Ec; [|discriminate]. apply is_true in Ec. subst c.
  assert (G : forall q (u : list ascii) x, In x (skip q u) -> In x u). { intros q u x. induction u as [|y u IH]; [intros []|]. cbn [skip]. destruct (q y); [intros X; right; apply IH, X|exact (fun X => X)]. } apply (G (fun c => is c "-")). rewrite E. left. reflexivity.
Qed.
Lemma type_tight a b t : t <> [] -> forallb word_char t = true -> tight (print_row (RType a b t)) /\ ~ In "|"%char (print_row (RType a b t)).
Proof.
  intros Hn Ht. rewrite forallb_forall in Ht. cbn [print_row]. split.
  - split; [reflexivity|]. replace (repeat "-"%char (S a) ++ "+"%char :: repeat "-"%char (S b) ++ chars " type -- " ++ t)%list with ((repeat "-"%char (S a) ++ "+"%char :: repeat "-"%char (S b) ++ chars " type -- ") ++ t)%list by (rewrite <- !app_assoc; cbn [app]; rewrite <- !app_assoc; reflexivity).
    rewrite rev_app_distr. destruct (rev t) as [|c r] eqn:E; [apply (f_equal (@rev ascii)) in E; rewrite rev_involutive in E; exfalso; exact (Hn E)|]. cbn. apply (word_char_space c), Ht. rewrite in_rev, E. left. reflexivity.
  - intros X. apply in_app_or in X as [X|[X|X]]; [apply repeat_spec in X; discriminate X|discriminate X|]. apply in_app_or in X as [X|X]; [apply repeat_spec in X; discriminate X|]. apply in_app_or in X as [X|X]; [cbn in X; repeat (destruct X as [X|X]; [discriminate X|]); exact X|]. apply (word_char_space _ (Ht _ X)). reflexivity.
Qed.
Lemma go_row c r rest i : row_ok r -> go (print_row r :: rest) (Some c) i = go rest (Some c) (rev (says c r) ++ i).
Proof.
  intros [Ns H]. cbn [go]. rewrite (no_step _ Ns). cbv zeta. destruct r as [n a b m k v|a b t|t].
  - destruct H as (Kn & Kt & Kb & Hv). destruct (val_facts v Hv) as (Vt & Vn & Vb). cbn [print_row].
    rewrite strip_padded. 2:{ replace (k ++ blanks a ++ "|"%char :: blanks b ++ print_val v)%list with (k ++ (blanks a ++ "|"%char :: blanks b) ++ print_val v)%list by (rewrite <- !app_assoc; reflexivity). apply tight_app; assumption. }
    unfold parse_param. replace (k ++ blanks a ++ "|"%char :: blanks b ++ print_val v)%list with (padded (0, a) k ++ "|"%char :: padded (b, 0) (print_val v))%list by (unfold padded; cbn [fst snd blanks repeat app]; rewrite app_nil_r, <- app_assoc; reflexivity).
    rewrite split_on_app; [|intros x Hx; apply is_false; intros ->; unfold padded in Hx; cbn [fst snd blanks repeat app] in Hx; apply in_app_or in Hx as [Hx|Hx]; [exact (Kb Hx)|apply blanks_no in Hx; discriminate Hx]|reflexivity].
    rewrite split_on_none by (intros x Hx; apply is_false; intros ->; unfold padded in Hx; cbn [fst snd blanks repeat app] in Hx; rewrite app_nil_r in Hx; apply in_app_or in Hx as [Hx|Hx]; [apply blanks_no in Hx; discriminate Hx|exact (Vb Hx)]).
    rewrite !strip_padded, value_ok by assumption. reflexivity.
  - destruct H as [Hn Ht]. assert (Hw : forallb word_char t = true) by (rewrite forallb_forall in Ht |- *; intros x Hx; rewrite <- name_word; apply Ht, Hx). clear Ht. rename Hw into Ht. destruct (type_tight a b t Hn Ht) as [T B]. rewrite strip_tight by exact T. rewrite bar_none by exact B. rewrite type_print by assumption. reflexivity.
  - destruct H as (B & P & x & Hx & Nx). cbn [print_row says rev app]. rewrite bar_none by (intros X; apply B, in_unstrip, X). destruct (type_line (strip t)) as [u|] eqn:E; [exfalso; apply P, in_unstrip, (type_plus _ _ E)|].
    assert (I : In x (strip t)) by (apply in_strip; [exact Hx|]; destruct (is_space x) eqn:S; [apply space_char in S; congruence|reflexivity]). destruct (strip t); [destruct I|reflexivity].
Qed.
Lemma go_rows c rows : forall rest i, Forall row_ok rows -> go (map print_row rows ++ rest) (Some c) i = go rest (Some c) (rev (flat_map (says c) rows) ++ i).
Proof.
  induction rows as [|r rows IH]; intros rest i H; [reflexivity|]. inversion H as [|x y Hr Hs]; subst. change (map print_row (r :: rows) ++ rest)%list with (print_row r :: map print_row rows ++ rest)%list. rewrite go_row, IH by assumption. cbn [flat_map]. rewrite rev_app_distr, <- app_assoc. reflexivity.
Qed.
Lemma strip_blanks m : strip (blanks m) = [].
Proof. unfold strip. rewrite skip_all. reflexivity. Qed.
Lemma go_blank c m rest i : go (blanks m :: rest) (Some c) i = go rest None i.
Proof. cbn [go]. unfold timestep. rewrite strip_blanks. reflexivity. Qed.
Lemma class_facts n c : c <> [] -> tight c -> timestep (print_class n c) = false /\ class_line (strip (print_class n c)) = Some c.
Proof.
  intros Hn Hc. assert (T : strip (print_class n c) = print_class n c). { apply strip_tight. unfold print_class. change (repeat "="%char (S n)) with ("="%char :: repeat "="%char n). change (("="%char :: repeat "="%char n) ++ chars " class == " ++ c)%list with (["="%char] ++ repeat "="%char n ++ chars " class == " ++ c)%list. rewrite (app_assoc (repeat _ _)). apply tight_app; [split; reflexivity|exact Hc|discriminate|exact Hn]. }
  split; [unfold timestep; rewrite T; reflexivity|]. rewrite T. unfold class_line, print_class. set (d := fun c => is c "="). assert (D : forall k, forallb d (repeat "="%char k) = true) by (induction k as [|k IH]; [reflexivity|exact IH]).
  destruct (take_all d (repeat "="%char (S n)) (chars " class == " ++ c) (D (S n))) as [-> ->]. change (skip d (chars " class == " ++ c)) with (chars " class == " ++ c)%list. rewrite after_app. cbn [repeat app]. destruct c as [|x c]; [congruence|]. rewrite strip_tight by exact Hc. reflexivity.
Qed.
Lemma watched_in c : watched c = true <-> In c classes.
Proof.
  unfold watched, classes. rewrite existsb_exists, in_map_iff. unfold text_is. split; intros [w [H1 H2]]; exists w.
  - destruct (list_eq_dec ascii_dec c (chars w)); [split; [congruence|exact H1]|discriminate].
  - split; [exact H2|]. destruct (list_eq_dec ascii_dec c (chars w)); [reflexivity|congruence].
Qed.
Lemma classes_tight c : In c classes -> c <> [] /\ tight c.
Proof. intros H. cbn in H. repeat (destruct H as [<-|H]; [split; [discriminate|split; reflexivity]|]). destruct H. Qed.
Lemma go_block b rest i : block_ok b -> go (print_block b ++ rest) None i = go rest None (rev (block_says b) ++ i).
Proof.
  destruct b as [n c h1 h2 rows m|n c|t]; intros H; cbn [print_block block_says rev app].
  - destruct H as (Hc & N1 & N2 & Hr). destruct (classes_tight c Hc) as [Cn Ct]. destruct (class_facts n c Cn Ct) as [S C]. cbn [go]. rewrite S. cbv zeta. rewrite C, (proj2 (watched_in c) Hc), (no_step _ N1), (no_step _ N2). cbn [orb]. rewrite <- app_assoc. cbn [app]. rewrite go_rows by exact Hr. apply go_blank.
  - destruct H as (Cn & Ct & Nc). destruct (class_facts n c Cn Ct) as [S C]. cbn [go]. rewrite S. cbv zeta. rewrite C. destruct (watched c) eqn:W; [exfalso; apply Nc, watched_in, W|reflexivity].
  - destruct H as [N E]. cbn [go]. rewrite (no_step _ N). cbv zeta. destruct (class_line (strip t)) as [c|] eqn:C; [|reflexivity]. exfalso. unfold class_line in C. destruct (strip_parts t) as [[p q] P]. destruct (strip t) as [|x s]; [cbn in C; discriminate C|]. cbn [take] in C. destruct (is x "=") eqn:X; [|discriminate C]. apply is_true in X. subst x. apply (E p (s ++ blanks q)%list). rewrite P. reflexivity.
Qed.
Lemma go_blocks bs : forall tail i, Forall block_ok bs -> tail_ok tail -> go (flat_map print_block bs ++ tail) None i = Some (rev (flat_map block_says bs) ++ i)%list.
Proof.
  induction bs as [|b bs IH]; intros tail i H T; cbn [flat_map].
  - destruct tail as [|l tail]; [reflexivity|]. cbn [app go rev]. rewrite (step_true l T). reflexivity.
  - inversion H as [|x y Hb Hs]; subst. rewrite <- app_assoc, go_block, IH by assumption. rewrite rev_app_distr, <- app_assoc. reflexivity.
Qed.
Lemma lookup_last k l : lookup k (rev l) = last_of k l.
Proof.
  unfold info, text in *. induction l as [|p l IH] using rev_ind; [reflexivity|]. unfold last_of. rewrite fold_left_app. cbn [fold_left]. fold (last_of k l). rewrite rev_app_distr. cbn [rev app]. unfold lookup, text. cbn [find]. destruct (list_eq_dec ascii_dec (fst p) k); [reflexivity|exact IH].
Qed.
Definition type_names : list string := ["MT_PRIMITIVE"; "MT_SEMI_CONSERVATIVE_GGCM"; "MT_SEMI_CONSERVATIVE"; "MT_FULLY_CONSERVATIVE"; "MT_FULLY_CONSERVATIVE_CC"; "MT_GKEYLL"]%string.
(** From any log of sections and other lines, up to the first report of the simulation, exactly the parameters and types of these classes are read, with the value given last, and nothing else; if the type of the equations is given it is named. *)
Theorem C94_log : forall bs tail, Forall block_ok bs -> tail_ok tail -> let said := flat_map block_says bs in let ty := last_of (chars "ggcm_mhd_fld_mhd_type") said in
  (forall v, ty = Some v -> exists z, v = PInt z) ->
  exists i, read_log (flat_map print_block bs ++ tail) = Some i /\
    (forall k, k <> chars "ggcm_mhd_fld_mhd_type_str" -> lookup k i = last_of k said) /\
    (forall z s, ty = Some (PInt z) -> (0 <= z)%Z -> nth_error type_names (Z.to_nat z) = Some s -> lookup (chars "ggcm_mhd_fld_mhd_type_str") i = Some (PText (chars s))) /\
    (ty = None \/ (exists z, ty = Some (PInt z) /\ (6 <= z)%Z) -> lookup (chars "ggcm_mhd_fld_mhd_type_str") i = Some (PText (chars "UNKNOWN"))).
Proof.
  intros bs tail H T said ty Hty. unfold read_log. rewrite (go_blocks bs tail [] H T), app_nil_r. fold said. unfold mhd_type. rewrite lookup_last. fold ty.
  assert (L : forall s i, lookup (chars "ggcm_mhd_fld_mhd_type_str") (put (chars "ggcm_mhd_fld_mhd_type_str") (PText (chars s)) i) = Some (PText (chars s))) by (intros s i; unfold lookup, put; cbn [find fst]; destruct (list_eq_dec ascii_dec _ _); [reflexivity|congruence]).
  assert (K : forall s k, k <> chars "ggcm_mhd_fld_mhd_type_str" -> lookup k (put (chars "ggcm_mhd_fld_mhd_type_str") (PText (chars s)) (rev said)) = last_of k said) by (intros s k Hk; rewrite <- lookup_last; unfold lookup, put; cbn [find fst]; destruct (list_eq_dec ascii_dec _ _) as [E|]; [exfalso; exact (Hk (eq_sym E))|reflexivity]).
  destruct ty as [v|] eqn:Ev.
  - destruct (Hty v eq_refl) as [z ->]. eexists. split; [reflexivity|]. split; [apply K|]. split.
    + intros z' s E Hz Hs. injection E as <-. rewrite L. assert (P : pick mhd_types z = Some s). { unfold pick. change (length mhd_types) with 6. assert (Z.to_nat z < 6) by (change 6 with (length type_names); apply nth_error_Some; congruence). destruct (Z.ltb_spec z 0); [lia|]. destruct ((0 <=? z) && (z <? Z.of_nat 6))%Z eqn:B; [exact Hs|lia]. } rewrite P. reflexivity.
    + intros [E|[z' [E Hz]]]; [discriminate E|]. injection E as <-. rewrite L. assert (P : pick mhd_types z = None). { unfold pick. change (length mhd_types) with 6. destruct (Z.ltb_spec z 0); [lia|]. destruct ((0 <=? z) && (z <? Z.of_nat 6))%Z eqn:B; [lia|reflexivity]. } rewrite P. reflexivity.
  - eexists. split; [reflexivity|]. split; [apply K|]. split; [intros z s E; discriminate E|]. intros _. apply L.
Qed.
Print Assumptions C94_log.
(** But a negative number for the type of the equations is not unknown: it is counted from the end of the list. *)
Theorem C94_type_refuted : forall z, (-6 <= z < 0)%Z -> forall i, lookup (chars "ggcm_mhd_fld_mhd_type") i = Some (PInt z) -> mhd_type i = nth_error type_names (Z.to_nat (z + 6)).
Proof. intros z H i E. unfold mhd_type. rewrite E. assert (D : (z = -6 \/ z = -5 \/ z = -4 \/ z = -3 \/ z = -2 \/ z = -1)%Z) by lia. destruct D as [->|[->|[->|[->|[->| ->]]]]]; reflexivity. Qed.
Print Assumptions C94_type_refuted.
(** A list whose first number has an exponent is left as text. *)
Theorem C94_exp_refuted : forall x e l, num_ok x -> power x = Some e -> l <> [] -> Forall (fun p => lit_ok (snd p)) l -> ~ In ":"%char (print_list (LReal x) l) -> parse_value (print_list (LReal x) l) = PText (print_list (LReal x) l).
Proof.
  intros x e l Hx He Hl Hf Nc. assert (Hw : lit_ok (LReal x)) by (split; [exact Hx|rewrite He; intros [_ X]; discriminate X]). destruct (list_tight l _ Hw Hf) as [T _].
  assert (I : In ","%char (print_list (LReal x) l)) by (destruct l as [|[[a b] v] l]; [congruence|]; cbn [print_list]; apply in_or_app; right; apply in_or_app; right; left; reflexivity).
  unfold parse_value. rewrite (bad_int _ _ I (proj1 (hard_facts _ comma_hard))), (bad_float _ _ I (proj1 (hard_facts _ comma_hard))), (hard_finite _ _ I comma_hard). cbv zeta. rewrite strip_tight by exact T. rewrite (two_no part false ":") by (first [reflexivity|exact Nc]).
  assert (F : two numeric true "," (print_list (LReal x) l) = false); [|rewrite F; reflexivity].
  assert (G : exists s, print_list (LReal x) l = (print_lit (LReal x) ++ s)%list) by (destruct l as [|[[a b] v] l]; [exists []; symmetry; apply app_nil_r|eexists; reflexivity]). destruct G as [s ->]. clear -Hx He. cbn [print_lit]. unfold print_num. rewrite He. destruct Hx as ([Hn Hd] & Hb & _).
  assert (D : forall m, Forall (fun d => d < 10) m -> forallb numeric (TabProps.text m) = true) by (intros m Hm; pose proof (text_digits m Hm) as U; rewrite forallb_forall in U |- *; intros c Hc; unfold numeric; rewrite (U c Hc); reflexivity).
  set (mant := (TabProps.text (before x) ++ match SelTextProps.after x with Some b => "."%char :: TabProps.text b | None => [] end)%list).
  assert (M : forallb numeric mant = true) by (unfold mant; rewrite forallb_app, D by exact Hd; destruct (SelTextProps.after x) as [b|]; [cbn [forallb]; rewrite D by (apply Hb; reflexivity); reflexivity|reflexivity]).
  assert (Mh : exists d r, mant = char_of d :: r /\ d < 10) by (unfold mant; destruct (before x) as [|d r]; [congruence|]; inversion Hd; subst; eexists d, _; split; [reflexivity|assumption]).
  replace ((minus (neg x) ++ TabProps.text (before x) ++ match SelTextProps.after x with Some b => "."%char :: TabProps.text b | None => [] end ++ "e"%char :: print_int e) ++ s)%list with (minus (neg x) ++ mant ++ "e"%char :: print_int e ++ s)%list by (unfold mant; rewrite <- !app_assoc; reflexivity).
  assert (Tk : token numeric true (minus (neg x) ++ mant ++ "e"%char :: print_int e ++ s) = Some ("e"%char :: print_int e ++ s)%list).
  { destruct (take_all numeric mant ("e"%char :: print_int e ++ s) M) as [E1 E2]. change (take numeric ("e"%char :: print_int e ++ s)) with (@nil ascii) in E1. change (skip numeric ("e"%char :: print_int e ++ s)) with ("e"%char :: print_int e ++ s)%list in E2. destruct Mh as (d & r & Em & Hd'). destruct (num_char d Hd') as (_ & Nm & _). unfold token. destruct (neg x); cbn [minus app].
    - change (true && is "-" "-") with true. cbn iota. cbv zeta. rewrite E1, E2, Em. reflexivity.
    - rewrite Em in *. cbn [app] in *. rewrite Nm. cbn [andb]. cbv zeta. rewrite E1, E2. reflexivity. }
  unfold two. rewrite Tk. reflexivity.
Qed.
Print Assumptions C94_exp_refuted.
(** If the empty line after a section is missing, the parameters of the next class are given to the first. *)
Theorem C94_blank_refuted : forall n c n2 c2 h1 h2 rows h3 h4 rows2 m, In c classes -> In c2 classes -> ~ step_line h1 -> ~ step_line h2 -> Forall row_ok rows -> row_ok (RNote h3) -> row_ok (RNote h4) -> Forall row_ok rows2 ->
  go (print_class n c :: h1 :: h2 :: map print_row rows ++ print_class n2 c2 :: h3 :: h4 :: map print_row rows2 ++ [blanks m]) None [] = Some (rev (flat_map (says c) (rows ++ rows2))).
Proof.
  intros n c n2 c2 h1 h2 rows h3 h4 rows2 m Hc Hc2 N1 N2 Hr Ok3 Ok4 Hr2. destruct (classes_tight c Hc) as [Cn Ct]. destruct (class_facts n c Cn Ct) as [S C]. destruct (classes_tight c2 Hc2) as [Cn2 Ct2]. destruct (class_facts n2 c2 Cn2 Ct2) as [S2 C2].
  cbn [go]. rewrite S. cbv zeta. rewrite C, (proj2 (watched_in c) Hc), (no_step _ N1), (no_step _ N2). cbn [orb]. rewrite go_rows by exact Hr.
  assert (Nt : go (print_class n2 c2 :: h3 :: h4 :: map print_row rows2 ++ [blanks m]) (Some c) (rev (flat_map (says c) rows) ++ []) = go (h3 :: h4 :: map print_row rows2 ++ [blanks m]) (Some c) (rev (flat_map (says c) rows) ++ [])).
  { cbn [go]. rewrite S2. cbv zeta. rewrite bar_none.
    - destruct (type_line (strip (print_class n2 c2))) as [u|] eqn:E; [|destruct (strip (print_class n2 c2)); [cbn in C2; discriminate C2|reflexivity]]. exfalso. apply type_plus, in_unstrip in E. unfold print_class in E. apply in_app_or in E as [E|E]; [apply repeat_spec in E; discriminate E|]. cbn in Hc2. repeat (destruct Hc2 as [<-|Hc2]; [cbn in E; repeat (destruct E as [E|E]; [discriminate E|]); exact E|]). exact Hc2.
    - intros E. apply in_unstrip in E. unfold print_class in E. apply in_app_or in E as [E|E]; [apply repeat_spec in E; discriminate E|]. cbn in Hc2. repeat (destruct Hc2 as [<-|Hc2]; [cbn in E; repeat (destruct E as [E|E]; [discriminate E|]); exact E|]). exact Hc2. }
  etransitivity; [exact Nt|]. etransitivity; [exact (go_row c (RNote h3) _ _ Ok3)|]. etransitivity; [exact (go_row c (RNote h4) _ _ Ok4)|]. cbn [says rev app]. rewrite go_rows by exact Hr2. rewrite go_blank. cbn [go]. rewrite flat_map_app, rev_app_distr, app_nil_r. reflexivity.
Qed.
Print Assumptions C94_blank_refuted.

(** Non-vacuity: a log as libmrc writes it *)
Definition ex_log : list (list ascii) := map chars
  ["OpenGGCM"; "==================================== class == mrc_crds"; "parameter                    | value"; "-----------------------------|------"; "l                            | -30., -4.e1, 7"; "sw                           | 2"; "gdx_file                     | grid.txt"; "-----------------------------+------ type -- rectilinear"; "dx0 | 0.25"; "";
   "===== class == ggcm_mhd_fld"; "parameter | value"; "---|---"; "mhd_type | 4"; ""; "===== class == mrc_io"; "sw | 5"; "cp= 1"; "x | 3"]%string.
Example C94_case : option_map (fun i => (lookup (chars "mrc_crds_sw") i, lookup (chars "mrc_crds_type") i, lookup (chars "mrc_crds_gdx_file") i, lookup (chars "ggcm_mhd_fld_mhd_type_str") i, lookup (chars "mrc_io_sw") i, length i)) (read_log ex_log)
  = Some (Some (PInt 2), Some (PText (chars "rectilinear")), Some (PText (chars "grid.txt")), Some (PText (chars "MT_FULLY_CONSERVATIVE_CC")), None, 7).
Proof. vm_compute. reflexivity. Qed.
Lemma not_step_by t : timestep t = false -> ~ step_line t.
Proof. intros E X. apply step_true in X. congruence. Qed.
Definition ex_blocks : list block :=
  [BOther (chars "OpenGGCM"); BSection 3 (chars "mrc_crds") (chars "a | b") (chars "--|--")
     [RParam 0 2 1 0 (chars "l") (VList (LReal (SelTextProps.Num true [3; 0] (Some []) None)) [(0, 1, LInt (false, [7]))]); RParam 0 1 1 0 (chars "file") (VWord (chars "grid.txt")); RType 3 4 (chars "uniform"); RNote (chars "see above")] 0; BClass 2 (chars "mrc_io")].
Example C94_case_ok : Forall block_ok ex_blocks /\ tail_ok [chars " step= 3"; chars "x"].
Proof.
  assert (N : forall t, timestep t = false -> ~ step_line t) by exact not_step_by. split; [|exists 1, (chars " 3"); right; reflexivity]. unfold ex_blocks. constructor; [|constructor; [|constructor; [|constructor]]].
  - split; [apply N; reflexivity|]. intros n r E. destruct n; discriminate E.
  - split; [cbn; tauto|]. split; [apply N; reflexivity|]. split; [apply N; reflexivity|]. constructor; [|constructor; [|constructor; [|constructor; [|constructor]]]].
    + split; [apply N; reflexivity|]. split; [discriminate|]. split; [split; reflexivity|]. split; [cbn; intros [X|[]]; discriminate X|]. split; [|split; [reflexivity|split; [discriminate|constructor; [|constructor]]]].
      * split; [|intros [X _]; discriminate X]. split; [split; [discriminate|repeat constructor; lia]|]. split; [intros b E; injection E as <-; constructor|intros e E; discriminate E].
      * split; [discriminate|repeat constructor; cbn; lia].
    + split; [apply N; reflexivity|]. split; [discriminate|]. split; [split; reflexivity|]. split; [unfold free_of; cbn; intuition discriminate|]. split; [split; reflexivity|]. split; [unfold free_of; cbn; intuition discriminate|]. split; [unfold free_of; cbn; intuition discriminate|]. split; [unfold free_of; cbn; intuition discriminate|]. exists "g"%char. split; [cbn; tauto|reflexivity].
    + split; [apply N; reflexivity|]. split; [discriminate|reflexivity].
    + split; [apply N; reflexivity|]. split; [unfold free_of; cbn; intuition discriminate|]. split; [unfold free_of; cbn; intuition discriminate|]. exists "s"%char. split; [cbn; tauto|discriminate].
  - split; [discriminate|]. split; [split; reflexivity|]. cbn. intuition discriminate.
Qed.
