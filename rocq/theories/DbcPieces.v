(** DbcPieces: the tokens of a text that is written in pieces. *)
From Coq Require Import Ascii.
From Verif Require Import Base CSource CNames Regex RegexLemmas DecText DbcToken DbcLex DbcStmt.
Local Open Scope string_scope.
Local Open Scope Z_scope.
Local Open Scope list_scope.

(** ** Pieces that are read as one token *)
(** A text of the form of a number token: digits with an optional sign, fraction and exponent *)
Fixpoint take_digits (t : chars) : chars * chars :=
  match t with
  | c :: r => if is_digit c then let '(d, r') := take_digits r in (c :: d, r') else ([], t)
  | [] => ([], [])
  end.
Definition take_sign (t : chars) : chars * chars :=
  match t with c :: r => if is_sign c then ([c], r) else ([], t) | [] => ([], []) end.
Definition number_split (t : chars) : number_parts :=
  let '(sg, t1) := take_sign t in
  let '(ds, t2) := take_digits t1 in
  let '(fr, t3) := match t2 with c :: r => if Ascii.eqb c "." then let '(f, r') := take_digits r in (Some f, r') else (None, t2) | [] => (None, t2) end in
  match t3 with
  | e :: r => let '(s, r1) := take_sign r in let '(d, r2) := take_digits r1 in Num sg ds fr (Some (e, s, d))
  | [] => Num sg ds fr None
  end.
Definition number_token (t : chars) : bool := number_ok (number_split t) && chars_eqb (number_text (number_split t)) t.
(** A name that is read as one word *)
Definition name_ok (w : chars) : bool := word_text w && negb (is_keyword w).
Definition is_symbol (c : ascii) : bool := existsb (fun p => Ascii.eqb c (fst p)) symbols.
Definition piece_ok (p : piece) : bool :=
  match p with
  | PK k => is_keyword (txt k)
  | PI w => name_ok w
  | PN t => number_token t
  | PS b => body_ok b
  | PC c => is_symbol c || is_sign c
  | PB b => forallb skip_char b
  end.
Definition piece_tokens (p : piece) : list token :=
  match p with
  | PK k => [(k, txt k)]
  | PI w => [("WORD", w)]
  | PN t => [("NUMBER", t)]
  | PS b => [("STRING", unescape b)]
  | PC c => [((if is_sign c then "+/-" else String c ""), [c])]
  | PB _ => []
  end.
Definition tokens (ps : list piece) : list token := flat_map piece_tokens ps.

(** The character that follows a piece must not be read as part of it. *)
Definition next_ok (p : piece) (n : option ascii) : bool :=
  match p, n with
  | PK _, Some c | PI _, Some c => negb (is_word c)
  | PN _, Some c => negb (num_char c)
  | PC s, Some c => negb (is_sign s && is_digit c)
  | _, _ => true
  end.
Definition first_char (ps : list piece) (n : option ascii) : option ascii :=
  match text ps with c :: _ => Some c | [] => n end.
Fixpoint pok (ps : list piece) (n : option ascii) : bool :=
  match ps with
  | [] => true
  | p :: r => piece_ok p && next_ok p (first_char r n) && pok r n
  end.

Lemma first_char_app a b n : first_char (a ++ b) n = first_char a (first_char b n).
Proof. unfold first_char, text. rewrite flat_map_app. destruct (flat_map piece_text a); reflexivity. Qed.
Lemma pok_app a b n : pok (a ++ b) n = pok a (first_char b n) && pok b n.
Proof. induction a as [|p a IH]; [reflexivity|]. cbn [app pok]. rewrite first_char_app, IH. now rewrite andb_assoc. Qed.

(** Characters that end every piece *)
Definition ends (n : option ascii) : bool := match n with Some c => negb (is_word c) && negb (Ascii.eqb c ".") | None => true end.
Lemma digit_word c : is_digit c = true -> is_word c = true. Proof. char_cases c. Qed.
Lemma exp_word c : is_exp c = true -> is_word c = true. Proof. char_cases c. Qed.
Lemma ends_next p n : ends n = true -> next_ok p n = true.
Proof.
  unfold ends, next_ok. destruct n as [c|]; [|destruct p; reflexivity]. intros H. apply andb_true_iff in H. destruct H as [H1 H2].
  apply negb_true_iff in H1, H2.
  assert (D : is_digit c = false) by (destruct (is_digit c) eqn:E; [apply digit_word in E; congruence|reflexivity]).
  assert (X : is_exp c = false) by (destruct (is_exp c) eqn:E; [apply exp_word in E; congruence|reflexivity]).
  destruct p; cbn [negb]; try (now rewrite H1); try reflexivity.
  - unfold num_char. now rewrite D, H2, X.
  - now rewrite D, andb_false_r.
Qed.
Lemma ends_first ps n : ends n = true -> (forall c t, text ps = c :: t -> ends (Some c) = true) -> ends (first_char ps n) = true.
Proof. intros E F. unfold first_char. destruct (text ps) as [|c t]; [exact E|]. exact (F c t eq_refl). Qed.
Lemma pok_ends ps n n' : ends n = true -> ends n' = true -> pok ps n = pok ps n'.
Proof.
  intros E E'. induction ps as [|p r IH]; [reflexivity|]. cbn [pok]. rewrite IH. f_equal. f_equal.
  unfold first_char. destruct (text r) as [|c t]; [|reflexivity]. now rewrite !ends_next.
Qed.

(** ** Reading *)
Lemma chars_eqb_eq a b : chars_eqb a b = true -> a = b.
Proof. unfold chars_eqb. destruct (list_eq_dec ascii_dec a b); [auto|discriminate]. Qed.
Lemma chars_eqb_refl a : chars_eqb a a = true.
Proof. unfold chars_eqb. destruct (list_eq_dec ascii_dec a a); [auto|congruence]. Qed.
Lemma keyword_word k : is_keyword (txt k) = true -> word_text (txt k) = true.
Proof.
  unfold is_keyword. intros H. apply existsb_exists in H. destruct H as (q & I & E). apply String.eqb_eq in E.
  unfold txt in E. rewrite string_of_list_ascii_of_string in E. subst q.
  cbn [keywords In] in I. repeat (destruct I as [<-|I]; [reflexivity|]). contradiction.
Qed.
Lemma head_next (q : ascii -> bool) s : match match s with c :: _ => Some c | [] => None end with Some c => negb (q c) | None => true end = true -> head_not q s.
Proof. destruct s as [|c s]; [reflexivity|]. cbn. intros H. now apply negb_true_iff in H. Qed.
Lemma tokenize_piece p rest : piece_ok p = true -> next_ok p (match rest with c :: _ => Some c | [] => None end) = true ->
  tokenize (piece_text p ++ rest) = put (piece_tokens p) (tokenize rest).
Proof.
  intros O N. destruct p as [k|w|t|b|c|b]; cbn [piece_text piece_tokens piece_ok] in *.
  - rewrite (tokenize_word (txt k) rest); [|now apply keyword_word|].
    + rewrite O. unfold txt. now rewrite string_of_list_ascii_of_string.
    + apply head_next. exact N.
  - unfold name_ok in O. apply andb_true_iff in O. destruct O as [O1 O2]. apply negb_true_iff in O2.
    rewrite (tokenize_word w rest O1); [now rewrite O2|]. apply head_next. exact N.
  - unfold number_token in O. apply andb_true_iff in O. destruct O as [O1 O2]. apply chars_eqb_eq in O2.
    rewrite <- O2. apply tokenize_number; [exact O1|]. apply head_next. exact N.
  - cbn [app]. rewrite <- app_assoc. now apply tokenize_string.
  - cbn [app]. destruct (is_sign c) eqn:S.
    + apply tokenize_sign; [exact S|]. cbn [next_ok] in N. destruct rest as [|d r]; [reflexivity|]. rewrite S in N. cbn in N |- *. now apply negb_true_iff in N.
    + rewrite orb_false_r in O. unfold is_symbol in O. apply existsb_exists in O. destruct O as ([c' s] & I & E). cbn [fst] in E.
      apply Ascii.eqb_eq in E. subst c'. rewrite (tokenize_symbol c s rest I). f_equal. f_equal. f_equal.
      cbn [symbols In] in I. repeat (destruct I as [I|I]; [apply pair_equal_spec in I; destruct I as [<- <-]; reflexivity|]). contradiction.
  - rewrite put_nil. destruct b as [|x b]; [reflexivity|]. apply tokenize_skip; [discriminate|exact O].
Qed.
Lemma tokenize_pieces ps : forall rest, pok ps (match rest with c :: _ => Some c | [] => None end) = true ->
  tokenize (text ps ++ rest) = put (tokens ps) (tokenize rest).
Proof.
  induction ps as [|p r IH]; intros rest H.
  - now rewrite put_nil.
  - cbn [pok] in H. apply andb_true_iff in H. destruct H as [H H2]. apply andb_true_iff in H. destruct H as [O N].
    unfold text, tokens. cbn [flat_map]. fold (text r) (tokens r). rewrite <- app_assoc.
    rewrite tokenize_piece; [|exact O|].
    + rewrite IH by exact H2. now rewrite put_put.
    + unfold first_char in N. destruct (text r); exact N.
Qed.
Theorem tokenize_text ps : pok ps None = true -> tokenize (text ps) = Some (tokens ps).
Proof. intros H. pose proof (tokenize_pieces ps [] H) as P. rewrite app_nil_r in P. rewrite P. cbn. now rewrite app_nil_r. Qed.

(** ** Lists of pieces *)
Lemma tokens_app a b : tokens (a ++ b) = tokens a ++ tokens b. Proof. apply flat_map_app. Qed.
Lemma text_app a b : text (a ++ b) = text a ++ text b. Proof. apply flat_map_app. Qed.
Lemma tokens_cons p b : tokens (p :: b) = piece_tokens p ++ tokens b. Proof. reflexivity. Qed.
Lemma tokens_flat {A} (f : A -> list piece) l : tokens (flat_map f l) = flat_map (fun x => tokens (f x)) l.
Proof. induction l as [|x l IH]; [reflexivity|]. cbn [flat_map]. now rewrite tokens_app, IH. Qed.
