(** SymToken: [SymParser60.tokenize] (database/can/formats/sym.py:56-170), and the tokens of a text that is written in
    pieces.  Text is ASCII. *)
From Coq Require Import Ascii.
From Verif Require Import Base CSource CNames Regex RegexLemmas DecText DbcToken DbcLex DbcStmt DbcPieces.
Local Open Scope string_scope.
Local Open Scope Z_scope.
Local Open Scope list_scope.

(** sym.py:56-73 *)
Definition sym_keywords : list string :=
  ["FormatVersion"; "Title"; "UniqueVariables"; "FloatDecimalPlaces"; "BRS"; "Enum"; "Sig"; "ID"; "Len"; "Mux"; "CycleTime"; "Timeout";
   "MinInterval"; "Color"; "Var"; "Type"].
Definition sym_keyword (w : chars) : bool := existsb (String.eqb (string_of_list_ascii w)) sym_keywords.

(** sym.py:107-145; re.DOTALL, so '.' is any character. *)
Definition exponent_re : re := Opt (seqs [Chr is_exp; Opt (Chr is_sign); Plus true (Chr is_digit)]).
Definition line_comment_re : re := seqs [Lit (txt "//"); Star false (Chr any_char); Chr (is_char newline)].
Definition hex_re : re :=
  seqs [Opt (Chr (is_char "-")); Plus true (Chr is_digit); Opt (Chr (is_char ".")); Star true (Chr hex_upper); exponent_re; Chr (is_char "h")].
Definition decimal_re : re :=
  seqs [Opt (Chr (is_char "-")); Plus true (Chr is_digit); Opt (Seq (Chr (is_char ".")) (Plus true (Chr is_digit))); exponent_re].
Definition unit_re : re := Seq (Lit (txt "/u:")) (Alt string_re (Plus true (Chr non_space))).
Definition word_char (c : ascii) : bool :=
  non_space c && negb (Ascii.eqb c "=") && negb (Ascii.eqb c "(") && negb (Ascii.eqb c "]") && negb (Ascii.eqb c "-").
(** The kinds are those of the grammar (sym.py:76-105): a fixed text is its own kind. *)
Definition literals : list string :=
  ["/f:"; "/o:"; "/min:"; "/max:"; "/spn:"; "/d:"; "/ln:"; "/e:"; "/p:"; "-m"; "-h"; "-b"; "-s"; "-t"; "-v"; "-p"; "("; ")"; "["; "]"; ","; "=";
   "{ENUMS}"; "{SIGNALS}"; "{SEND}"; "{RECEIVE}"; "{SENDRECEIVE}"].
Definition front_specs : list (string * re) :=
  [("SKIP", Plus true (Chr skip_char)); ("COMMENT", line_comment_re); ("HEXNUMBER", hex_re); ("NUMBER", decimal_re); ("STRING", string_re);
   ("/u:", unit_re)] ++ map (fun l => (l, Lit (txt l))) literals.
Definition sym_specs : list (string * re) := front_specs ++ [("WORD", Plus true (Chr word_char)); ("MISMATCH", Chr any_char)].
Definition sym_lex (s : chars) : option (string * chars * chars) := lex_with sym_specs s.

(** sym.py:149-168: what one match contributes; None is TokenizeError. *)
Definition sym_emit (k : string) (v : chars) : option (list token) :=
  if String.eqb k "SKIP" then Some []
  else if String.eqb k "STRING" then Some [("STRING", unescape (inner v))]
  else if String.eqb k "MISMATCH" then None
  else Some [((if sym_keyword v then string_of_list_ascii v else k), v)].
(** [fuel] is the length of the text: every match consumes a character. *)
Fixpoint sym_tokens_fuel (fuel : nat) (s : chars) : option (list token) :=
  match fuel, s with
  | _, [] => Some []
  | O, _ => None
  | S f, _ =>
      match sym_lex s with
      | None => None
      | Some (k, v, s') =>
          match sym_emit k v, sym_tokens_fuel f s' with
          | Some t, Some ts => Some (t ++ ts)
          | _, _ => None
          end
      end
  end.
Definition sym_tokenize (s : chars) : option (list token) := sym_tokens_fuel (List.length s) s.

(** ** Progress *)
Lemma sym_progress s k v s' : sym_lex s = Some (k, v, s') -> (List.length s' < List.length s)%nat.
Proof. apply lex_with_progress. reflexivity. Qed.
Lemma sym_fuel : forall f s, (List.length s <= f)%nat -> sym_tokens_fuel f s = sym_tokenize s.
Proof.
  unfold sym_tokenize.
  assert (G : forall n f s, (List.length s <= n)%nat -> (List.length s <= f)%nat -> sym_tokens_fuel f s = sym_tokens_fuel (List.length s) s).
  { induction n as [|n IH]; intros f s N F.
    - destruct s; [destruct f; reflexivity|cbn [List.length] in N; lia].
    - destruct s as [|x s]; [destruct f; reflexivity|]. destruct f as [|f]; [cbn [List.length] in F; lia|].
      cbn [sym_tokens_fuel List.length]. destruct (sym_lex (x :: s)) as [[[k v] s']|] eqn:E; [|reflexivity].
      pose proof (sym_progress _ _ _ _ E) as P. cbn [List.length] in P, N, F.
      rewrite (IH f s') by lia. rewrite (IH (List.length s) s') by lia. reflexivity. }
  intros f s F. apply (G (List.length s)); lia.
Qed.
Lemma sym_put s k v s' t : sym_lex s = Some (k, v, s') -> sym_emit k v = Some t -> sym_tokenize s = put t (sym_tokenize s').
Proof.
  intros E M. pose proof (sym_progress _ _ _ _ E) as P. unfold sym_tokenize at 1. destruct s as [|x s]; [cbn in P; lia|].
  cbn [List.length] in *. cbn [sym_tokens_fuel]. rewrite E, M. rewrite sym_fuel by lia. destruct (sym_tokenize s'); reflexivity.
Qed.

(** ** The characters that a pattern consumes *)
Fixpoint ralpha (r : re) (x : ascii) : bool :=
  match r with
  | Eps | Eol => false
  | Chr p => p x
  | Seq a b | Alt a b => ralpha a x || ralpha b x
  | Star _ r | Regex.Group _ r => ralpha r x
  end.
Lemma forallb_weaken {A} (p q : A -> bool) l : (forall x, p x = true -> q x = true) -> forallb p l = true -> forallb q l = true.
Proof. intros H P. rewrite forallb_forall in *. auto. Qed.
Lemma rmatch_chars {X} : forall r c s (k : caps -> chars -> option X) x, rmatch r c s k = Some x ->
  exists c' w s', s = w ++ s' /\ forallb (ralpha r) w = true /\ k c' s' = Some x.
Proof.
  induction r as [|p|a IHa b IHb|a IHa b IHb|g r IH|n r IH|]; intros c s k x H; cbn [rmatch ralpha] in H |- *.
  - exists c, [], s. auto.
  - destruct s as [|y s]; [discriminate|]. destruct (p y) eqn:E; [|discriminate]. exists c, [y], s. cbn. rewrite E. auto.
  - destruct (IHa _ _ _ _ H) as (c1 & w1 & s1 & -> & W1 & H1). destruct (IHb _ _ _ _ H1) as (c2 & w2 & s2 & -> & W2 & H2).
    exists c2, (w1 ++ w2), s2. rewrite app_assoc. split; [reflexivity|]. split; [|exact H2]. rewrite forallb_app.
    rewrite (forallb_weaken (ralpha a) _ w1), (forallb_weaken (ralpha b) _ w2); auto; intros y ->; auto using orb_true_r.
  - destruct (rmatch a c s k) eqn:E.
    + injection H as <-. destruct (IHa _ _ _ _ E) as (c1 & w1 & s1 & -> & W1 & H1). exists c1, w1, s1. split; [reflexivity|]. split; [|exact H1].
      apply (forallb_weaken (ralpha a)); auto. intros y ->. reflexivity.
    + destruct (IHb _ _ _ _ H) as (c1 & w1 & s1 & -> & W1 & H1). exists c1, w1, s1. split; [reflexivity|]. split; [|exact H1].
      apply (forallb_weaken (ralpha b)); auto. intros y ->. apply orb_true_r.
  - remember (List.length s) as fuel eqn:F in H. clear F. revert x c s H. induction fuel as [|f IHf]; intros x c s H.
    + exists c, [], s. auto.
    + set (star := (fix star (fuel : nat) (c : caps) (s : chars) : option X :=
         match fuel with
         | O => k c s
         | S f =>
             if g then
               match rmatch r c s (fun c' s' => if Nat.ltb (List.length s') (List.length s) then star f c' s' else None) with
               | Some x => Some x
               | None => k c s
               end
             else
               match k c s with
               | Some x => Some x
               | None => rmatch r c s (fun c' s' => if Nat.ltb (List.length s') (List.length s) then star f c' s' else None)
               end
         end)) in *.
      assert (I : rmatch r c s (fun c' s' => if Nat.ltb (List.length s') (List.length s) then star f c' s' else None) = Some x ->
         exists c' w s', s = w ++ s' /\ forallb (ralpha r) w = true /\ k c' s' = Some x).
      { intros H'. destruct (IH _ _ _ _ H') as (c1 & w1 & s1 & E1 & W1 & H1). destruct (Nat.ltb_spec (List.length s1) (List.length s)) as [L|L]; [|discriminate].
        destruct (IHf x _ _ H1) as (c2 & w2 & s2 & E2 & W2 & H2). exists c2, (w1 ++ w2), s2. rewrite E1, E2, app_assoc, forallb_app. split; [reflexivity|]. split; [|exact H2]. apply andb_true_iff. split; assumption. }
      assert (J : k c s = Some x -> exists c' w s', s = w ++ s' /\ forallb (ralpha r) w = true /\ k c' s' = Some x).
      { intros H'. exists c, [], s. auto. }
      cbn [star] in H. destruct g.
      * match type of H with match ?t with _ => _ end = _ => destruct t eqn:E end; [apply I; congruence|apply J; exact H].
      * destruct (k c s) eqn:E; [apply J; congruence|apply I; exact H].
  - destruct (IH _ _ _ _ H) as (c1 & w1 & s1 & -> & W1 & H1). eexists _, w1, s1. eauto.
  - destruct s as [|y [|z s]]; [exists c, [], []|destruct (Ascii.eqb y newline); [exists c, [], [y]|discriminate]|discriminate]; auto.
Qed.

(** ** Pieces *)
Inductive spiece :=
| SB (b : chars)          (* white space *)
| SC (c : chars)          (* a comment up to the end of the line *)
| SH (t : chars)          (* a hexadecimal number, without the letter h *)
| SN (t : chars)          (* a number *)
| SS (w : chars)          (* a string *)
| SU (u : chars)          (* a unit *)
| SL (l : string)         (* a fixed text *)
| SW (w : chars).         (* a word *)
Definition comment_token (c : chars) : chars := txt "//" ++ c ++ [newline].
Definition unit_token (u : chars) : chars := txt "/u:" ++ quote :: u ++ [quote].
Definition spiece_text (p : spiece) : chars :=
  match p with
  | SB b => b
  | SC c => comment_token c
  | SH t => t ++ ["h"%char]
  | SN t => t
  | SS w => quote :: w ++ [quote]
  | SU u => unit_token u
  | SL l => txt l
  | SW w => w
  end.
Definition stext (ps : list spiece) : chars := flat_map spiece_text ps.
Definition word_kind (w : chars) : string := if sym_keyword w then string_of_list_ascii w else "WORD".
Definition spiece_tokens (p : spiece) : list token :=
  match p with
  | SB _ => []
  | SC c => [("COMMENT", comment_token c)]
  | SH t => [("HEXNUMBER", t ++ ["h"%char])]
  | SN t => [("NUMBER", t)]
  | SS w => [("STRING", unescape w)]
  | SU u => [("/u:", unit_token u)]
  | SL l => [(l, txt l)]
  | SW w => [(word_kind w, w)]
  end.
Definition stokens (ps : list spiece) : list token := flat_map spiece_tokens ps.

(** A number of decimal_re *)
Definition decimal_token (t : chars) : bool :=
  number_token t && match n_sign (number_split t) with [c] => Ascii.eqb c "-" | _ => true end &&
  match n_frac (number_split t) with Some [] => false | _ => true end.
Definition unsigned_hex (t : chars) : bool := match t with d :: _ => is_digit d && forallb hex_upper t | [] => false end.
Definition hex_token (t : chars) : bool := match t with c :: r => if Ascii.eqb c "-" then unsigned_hex r else unsigned_hex t | [] => false end.
Definition no_newline (c : chars) : bool := forallb (fun x => negb (Ascii.eqb x newline)) c.
Definition word_start (c : ascii) : bool :=
  word_char c && negb (is_digit c) && negb (Ascii.eqb c "/" || Ascii.eqb c quote || Ascii.eqb c ")" || Ascii.eqb c "[" || Ascii.eqb c "," || Ascii.eqb c "{").
Definition sym_word (w : chars) : bool := match w with c :: _ => word_start c && forallb word_char w | [] => false end.
Definition spiece_ok (p : spiece) : bool :=
  match p with
  | SB b => forallb skip_char b
  | SC c => no_newline c
  | SH t => hex_token t
  | SN t => decimal_token t
  | SS w | SU w => body_ok w
  | SL l => existsb (String.eqb l) literals
  | SW w => sym_word w
  end.
(** Characters that could continue a number *)
Definition num_follow (c : ascii) : bool := hex_upper c || is_sign c || is_exp c || Ascii.eqb c "." || Ascii.eqb c "h".
Definition snext_ok (p : spiece) (n : option ascii) : bool :=
  match p, n with
  | SN _, Some c => negb (num_follow c)
  | SW _, Some c => negb (word_char c)
  | _, _ => true
  end.
Definition sfirst (ps : list spiece) (n : option ascii) : option ascii := match stext ps with c :: _ => Some c | [] => n end.
Fixpoint spok (ps : list spiece) (n : option ascii) : bool :=
  match ps with
  | [] => true
  | p :: r => spiece_ok p && snext_ok p (sfirst r n) && spok r n
  end.
Lemma stext_app a b : stext (a ++ b) = stext a ++ stext b. Proof. apply flat_map_app. Qed.
Lemma stokens_app a b : stokens (a ++ b) = stokens a ++ stokens b. Proof. apply flat_map_app. Qed.
Lemma sfirst_app a b n : sfirst (a ++ b) n = sfirst a (sfirst b n).
Proof. unfold sfirst, stext. rewrite flat_map_app. destruct (flat_map spiece_text a); reflexivity. Qed.
Lemma spok_app a b n : spok (a ++ b) n = spok a (sfirst b n) && spok b n.
Proof. induction a as [|p a IH]; [reflexivity|]. cbn [app spok]. rewrite sfirst_app, IH. now rewrite andb_assoc. Qed.

(** ** Reading the pieces *)
Lemma lex_front : forall front back s, match s with [] => False | x :: _ => forallb (fun p => negb (nullable (snd p)) && negb (rfirst (snd p) x)) front = true end ->
  lex_with (front ++ back) s = lex_with back s.
Proof.
  induction front as [|[k r] front IH]; intros back s H; [reflexivity|]. destruct s as [|x s]; [contradiction|]. cbn [forallb snd] in H.
  apply andb_true_iff in H. destruct H as [H1 H2]. apply andb_true_iff in H1. destruct H1 as [N F]. apply negb_true_iff in N, F.
  cbn [app lex_with]. rewrite mr_first by assumption. now apply IH.
Qed.
Lemma lex_here k r specs s rest : match_rest r (s ++ rest) = Some rest -> lex_with ((k, r) :: specs) (s ++ rest) = Some (k, s, rest).
Proof. intros H. cbn [lex_with]. rewrite H, consumed_app. reflexivity. Qed.

Lemma sym_skip w rest : w <> [] -> forallb skip_char w = true -> sym_tokenize (w ++ rest) = sym_tokenize rest.
Proof.
  assert (G : forall w rest, w <> [] -> forallb skip_char w = true -> head_not skip_char rest -> sym_tokenize (w ++ rest) = sym_tokenize rest).
  { clear. intros w rest NE W H. rewrite <- (put_nil (sym_tokenize rest)). apply (sym_put _ "SKIP" w rest); [|reflexivity].
    apply lex_here. unfold match_rest. rewrite (plus_greedy skip_char [] w rest (fun _ s' => Some s')) by (auto; discriminate). reflexivity. }
  intros NE W.
  assert (S : exists w' rest', rest = w' ++ rest' /\ forallb skip_char w' = true /\ head_not skip_char rest').
  { clear. induction rest as [|x rest IH]; [exists [], []; cbn; auto|]. destruct (skip_char x) eqn:E.
    - destruct IH as (w' & r' & -> & A & B). exists (x :: w'), r'. cbn [forallb app]. rewrite E. auto.
    - exists [], (x :: rest). cbn. auto. }
  destruct S as (w' & rest' & -> & W' & H). rewrite app_assoc. rewrite G; [|destruct w; [congruence|discriminate]|rewrite forallb_app, W, W'; reflexivity|exact H].
  destruct w' as [|x w']; [reflexivity|]. symmetry. apply G; [discriminate|exact W'|exact H].
Qed.

Lemma comment_lazy c rest : no_newline c = true ->
  rmatch (Star false (Chr any_char)) [] (c ++ newline :: rest) (fun c' s' => rmatch (Chr (is_char newline)) c' s' (fun _ s' => Some s')) = Some rest.
Proof.
  induction c as [|x c IH]; intros H; cbn [app]; rewrite cstar_cons; [reflexivity|]. cbn [no_newline forallb] in H. apply andb_true_iff in H. destruct H as [H1 H2].
  apply negb_true_iff in H1. cbn [rmatch]. unfold is_char at 1. rewrite Ascii.eqb_sym, H1. change (any_char x) with true. cbn iota. apply IH, H2.
Qed.
Lemma sym_comment c rest : no_newline c = true -> sym_tokenize (comment_token c ++ rest) = put [("COMMENT", comment_token c)] (sym_tokenize rest).
Proof.
  intros H. apply (sym_put _ "COMMENT" (comment_token c) rest).
  - unfold sym_lex, sym_specs, front_specs. cbn [app]. cbn [lex_with].
    assert (M : match_rest (Plus true (Chr skip_char)) (comment_token c ++ rest) = None) by reflexivity. rewrite M.
    apply (lex_here "COMMENT" line_comment_re). unfold match_rest, line_comment_re, comment_token. cbn [seqs]. rewrite <- !app_assoc, seq_lit. apply comment_lazy, H.
  - unfold sym_emit. cbn [String.eqb Ascii.eqb Bool.eqb].
    assert (K : sym_keyword (comment_token c) = false); [|rewrite K; reflexivity].
    unfold sym_keyword. change (string_of_list_ascii (comment_token c)) with (String "/" (string_of_list_ascii (tl (comment_token c)))). reflexivity.
Qed.

(** Numbers *)
Lemma digit_start_front c : is_digit c = true \/ c = "-"%char ->
  rfirst (Plus true (Chr skip_char)) c = false /\ rfirst line_comment_re c = false.
Proof. intros [H| ->]; [|split; reflexivity]. revert H. char_cases c; split; reflexivity. Qed.
Lemma follow_digit c : is_digit c = true -> num_follow c = true.
Proof. unfold num_follow, hex_upper. intros ->. reflexivity. Qed.
Lemma follow_num c : num_char c = true -> num_follow c = true.
Proof. char_cases c. Qed.
Lemma hex_alpha c : ralpha hex_re c = true -> num_follow c = true.
Proof. char_cases c. Qed.
Lemma no_hex t rest : forallb (fun c => negb (Ascii.eqb c "h")) t = true -> head_not num_follow rest -> match_rest hex_re (t ++ rest) = None.
Proof.
  intros T R. destruct (match_rest hex_re (t ++ rest)) as [y|] eqn:E; [exfalso|reflexivity].
  assert (G : exists w s', t ++ rest = w ++ "h"%char :: s' /\ forallb (ralpha hex_re) w = true).
  { unfold match_rest, hex_re in E. cbn [seqs] in E. rewrite !rseq in E.
    apply rmatch_chars in E. destruct E as (c1 & w1 & s1 & E1 & W1 & E). rewrite E1. clear E1. rewrite rseq in E.
    apply rmatch_chars in E. destruct E as (c2 & w2 & s2 & -> & W2 & E). rewrite rseq in E.
    apply rmatch_chars in E. destruct E as (c3 & w3 & s3 & -> & W3 & E). rewrite rseq in E.
    apply rmatch_chars in E. destruct E as (c4 & w4 & s4 & -> & W4 & E). rewrite rseq in E.
    apply rmatch_chars in E. destruct E as (c5 & w5 & s5 & -> & W5 & E).
    cbn [rmatch] in E. destruct s5 as [|z s5]; [discriminate|]. destruct (is_char "h" z) eqn:Z; [|discriminate]. apply is_char_eq in Z. subst z.
    exists (w1 ++ w2 ++ w3 ++ w4 ++ w5), s5. rewrite <- !app_assoc. split; [reflexivity|]. rewrite !forallb_app.
    rewrite !andb_true_iff. repeat split; (eapply forallb_weaken; [|eassumption]); unfold hex_re; cbn [seqs ralpha]; intros x Q; cbn [ralpha] in Q |- *;
      rewrite Q, ?orb_true_r; reflexivity. }
  destruct G as (w & s' & G & W). clear E y. revert w G W. induction t as [|x t IH]; intros w G W.
  - cbn [app] in G. destruct w as [|z w]; cbn [app] in G; subst rest; cbn in R; [discriminate R|]. cbn [forallb] in W. apply andb_true_iff in W. destruct W as [W _].
    apply hex_alpha in W. congruence.
  - cbn [forallb] in T. apply andb_true_iff in T. destruct T as [T1 T2]. cbn [app] in G. destruct w as [|z w]; cbn [app] in G.
    + injection G as -> _. discriminate T1.
    + injection G as <- G. cbn [forallb] in W. apply andb_true_iff in W. eapply IH; eauto. apply W.
Qed.
Lemma number_no_h n : number_ok n = true -> forallb (fun c => negb (Ascii.eqb c "h")) (number_text n) = true.
Proof.
  intros H. unfold number_ok in H. apply andb_true_iff in H. destruct H as [H HE]. apply andb_true_iff in H. destruct H as [H HF].
  apply andb_true_iff in H. destruct H as [HS HI]. destruct n as [sg ds fr ex]. cbn [n_sign n_int n_frac n_exp] in *.
  assert (D : forall d, forallb is_digit d = true -> forallb (fun c => negb (Ascii.eqb c "h")) d = true).
  { intros d. apply forallb_weaken. intros x. char_cases x. }
  assert (DT : forall d, digits_text d = true -> forallb (fun c => negb (Ascii.eqb c "h")) d = true).
  { intros d Q. apply D. destruct d; [discriminate|exact Q]. }
  assert (S : forall s, sign_text s = true -> forallb (fun c => negb (Ascii.eqb c "h")) s = true).
  { intros [|x [|y r]] Q; try discriminate; [reflexivity|]. cbn [sign_text] in Q. cbn [forallb]. rewrite andb_true_r. revert Q. char_cases x. }
  unfold number_text. cbn [n_sign n_int n_frac n_exp]. rewrite !forallb_app, S, DT by assumption. cbn [andb].
  assert (F : forallb (fun c => negb (Ascii.eqb c "h")) (match fr with Some f => "."%char :: f | None => [] end) = true).
  { destruct fr as [f|]; [|reflexivity]. cbn [forallb]. rewrite D by exact HF. reflexivity. }
  rewrite F. destruct ex as [[[e s] d]|]; [|reflexivity]. apply andb_true_iff in HE. destruct HE as [HE D']. apply andb_true_iff in HE. destruct HE as [E S'].
  cbn [forallb]. rewrite forallb_app, S, DT by assumption. cbn [andb]. rewrite andb_true_r. revert E. char_cases e.
Qed.
Lemma decimal_match n rest : number_ok n = true -> match n_sign n with [c] => Ascii.eqb c "-" | _ => true end = true ->
  match n_frac n with Some [] => false | _ => true end = true -> head_not num_char rest -> match_rest decimal_re (number_text n ++ rest) = Some rest.
Proof.
  intros H SG FR R. unfold number_ok in H. apply andb_true_iff in H. destruct H as [H HE]. apply andb_true_iff in H. destruct H as [H HF].
  apply andb_true_iff in H. destruct H as [HS HI]. destruct n as [sg ds fr ex]. cbn [n_sign n_int n_frac n_exp] in *.
  unfold number_text. cbn [n_sign n_int n_frac n_exp]. rewrite <- !app_assoc.
  set (tail := match ex with Some (e, s, d) => e :: s ++ d | None => [] end ++ rest).
  assert (T := exp_match ex rest HE R). fold tail in T.
  assert (TD : head_not is_digit tail).
  { unfold tail. destruct ex as [[[e s] d]|]; [|exact (head_weaken _ _ _ num_char_digit R)]. cbn.
    apply is_exp_not_digit. apply andb_true_iff in HE. destruct HE as [HE _]. now apply andb_true_iff in HE. }
  assert (TP : head_not (is_char ".") tail).
  { unfold tail. destruct ex as [[[e s] d]|]; [|exact (head_weaken _ _ _ num_char_point R)]. cbn.
    apply is_exp_not_point. apply andb_true_iff in HE. destruct HE as [HE _]. now apply andb_true_iff in HE. }
  clearbody tail. destruct (digits_text_ok ds HI) as [NE DD].
  unfold match_rest, decimal_re. cbn [seqs]. fold exponent_re in T.
  set (K := fun (_ : caps) (s' : chars) => Some s') in *.
  assert (F : rmatch (Opt (Seq (Chr (is_char ".")) (Plus true (Chr is_digit)))) [] (match fr with Some f => "."%char :: f | None => [] end ++ tail)
               (fun c' s' => rmatch exponent_re c' s' K) = Some rest).
  { destruct fr as [f|].
    - unfold Opt. cbn [rmatch app]. change (is_char "." ".") with true. cbn iota. 
      assert (P : rmatch (Plus true (Chr is_digit)) [] (f ++ tail) (fun c' s' => rmatch exponent_re c' s' K) = Some rest).
      { rewrite plus_greedy; [exact T|destruct f; [discriminate FR|discriminate]| |exact HF|exact TD]. intros Q. pose proof (eq_trans (eq_sym Q) T) as QF. discriminate QF. }
      match goal with |- match ?a with _ => _ end = _ => replace a with (Some rest) by (symmetry; exact P) end. reflexivity.
    - cbn [app]. rewrite opt_skip_re; [exact T|reflexivity|]. destruct tail as [|x tl]; [exact I|]. cbn [rfirst nullable] in *. cbn in TP |- *. rewrite TP. reflexivity. }
  assert (DN : head_not is_digit (match fr with Some f => "."%char :: f | None => [] end ++ tail)) by (destruct fr; [reflexivity|exact TD]).
  assert (P : rmatch (Plus true (Chr is_digit)) [] (ds ++ match fr with Some f => "."%char :: f | None => [] end ++ tail)
     (fun c' s' => rmatch (Seq (Opt (Seq (Chr (is_char ".")) (Plus true (Chr is_digit)))) exponent_re) c' s' K) = Some rest).
  { rewrite plus_greedy; [exact F|exact NE| |exact DD|exact DN]. intros Q. pose proof (eq_trans (eq_sym Q) F) as QF. discriminate QF. }
  rewrite rseq. destruct sg as [|x [|y r]]; [| |discriminate].
  - cbn [app]. rewrite opt_skip; [rewrite rseq; exact P|]. destruct ds as [|d ds]; [congruence|]. cbn [app head_not]. cbn [forallb] in DD. apply andb_true_iff in DD. destruct DD as [DD _].
    revert DD. char_cases d.
  - apply Ascii.eqb_eq in SG. subst x. cbn [app]. rewrite opt_take; [rewrite rseq; exact P|reflexivity|]. rewrite rseq. rewrite P. discriminate.
Qed.
Lemma number_head_digit n c t : number_ok n = true -> match n_sign n with [c] => Ascii.eqb c "-" | _ => true end = true -> number_text n = c :: t ->
  is_digit c = true \/ c = "-"%char.
Proof.
  intros H SG E. unfold number_ok in H. apply andb_true_iff in H. destruct H as [H _]. apply andb_true_iff in H. destruct H as [H _].
  apply andb_true_iff in H. destruct H as [HS HI]. unfold number_text in E. destruct (n_sign n) as [|x [|y r]]; [| |discriminate].
  - destruct (n_int n) as [|d ds]; [discriminate|]. cbn [app] in E. injection E as <- _. cbn [digits_text forallb] in HI. apply andb_true_iff in HI. left. apply HI.
  - cbn [app] in E. injection E as <- _. right. now apply Ascii.eqb_eq in SG.
Qed.
Lemma not_keyword w : match w with c :: _ => is_upper c = false | [] => True end -> sym_keyword w = false.
Proof.
  intros H. destruct (sym_keyword w) eqn:E; [exfalso|reflexivity]. unfold sym_keyword in E. apply existsb_exists in E. destruct E as (k & K & E). apply String.eqb_eq in E.
  assert (W : w = list_ascii_of_string k) by (rewrite <- E, list_ascii_of_string_of_list_ascii; reflexivity). subst w. clear E.
  cbn [sym_keywords In] in K. repeat (destruct K as [<-|K]; [discriminate H|]). contradiction.
Qed.
Lemma digit_not_upper c : is_digit c = true \/ c = "-"%char -> is_upper c = false.
Proof. intros [H| ->]; [|reflexivity]. revert H. char_cases c. Qed.
Lemma sym_number t rest : decimal_token t = true -> head_not num_follow rest -> sym_tokenize (t ++ rest) = put [("NUMBER", t)] (sym_tokenize rest).
Proof.
  intros H R. unfold decimal_token in H. apply andb_true_iff in H. destruct H as [H FR]. apply andb_true_iff in H. destruct H as [H SG].
  unfold number_token in H. apply andb_true_iff in H. destruct H as [H E]. apply chars_eqb_eq in E.
  pose proof (number_no_h _ H) as NH. rewrite E in NH. pose proof (number_text_start _ H) as S. rewrite E in S. destruct t as [|c t]; [contradiction|].
  pose proof (number_head_digit _ c t H SG E) as C. destruct (digit_start_front c C) as [F1 F2].
  apply (sym_put _ "NUMBER" (c :: t) rest).
  - unfold sym_lex, sym_specs, front_specs. cbn [app lex_with]. rewrite !mr_first by (reflexivity || assumption).
    change (c :: t ++ rest) with ((c :: t) ++ rest). rewrite (no_hex (c :: t) rest NH R).
    pose proof (decimal_match _ rest H SG FR (head_weaken _ _ _ follow_num R)) as M. rewrite E in M. rewrite M, consumed_app. reflexivity.
  - unfold sym_emit. cbn [String.eqb Ascii.eqb Bool.eqb]. rewrite not_keyword; [reflexivity|]. now apply digit_not_upper.
Qed.

(** Hexadecimal numbers *)
Lemma digits_prefix h : forallb hex_upper h = true -> exists a b, h = a ++ b /\ forallb is_digit a = true /\ forallb hex_upper b = true /\ head_not is_digit b.
Proof.
  induction h as [|x h IH]; intros H; [exists [], []; repeat split|]. cbn [forallb] in H. apply andb_true_iff in H. destruct H as [H1 H2].
  destruct (is_digit x) eqn:E.
  - destruct (IH H2) as (a & b & -> & A & B & C). exists (x :: a), b. cbn [app forallb]. rewrite E. auto.
  - exists [], (x :: h). cbn [app forallb head_not]. rewrite H1, H2. auto.
Qed.
Lemma hex_match t rest : hex_token t = true -> match_rest hex_re ((t ++ ["h"%char]) ++ rest) = Some rest.
Proof.
  intros H. rewrite <- app_assoc. cbn [app].
  assert (U : forall u, unsigned_hex u = true ->
    rmatch (Seq (Plus true (Chr is_digit)) (Seq (Opt (Chr (is_char "."))) (Seq (Star true (Chr hex_upper)) (Seq exponent_re (Chr (is_char "h")))))) [] (u ++ "h"%char :: rest)
      (fun _ s' => Some s') = Some rest).
  { intros u Q. unfold unsigned_hex in Q. destruct u as [|d u]; [discriminate|]. apply andb_true_iff in Q. destruct Q as [D Q].
    destruct (digits_prefix _ Q) as (a & b & E & A & B & C). rewrite E. rewrite <- app_assoc.
    assert (NE : a <> []). { intros ->. cbn [app] in E. subst b. cbn in C. congruence. }
    assert (T : rmatch (Seq (Opt (Chr (is_char "."))) (Seq (Star true (Chr hex_upper)) (Seq exponent_re (Chr (is_char "h"))))) [] (b ++ "h"%char :: rest) (fun _ s' => Some s') = Some rest).
    { rewrite rseq, opt_skip.
      - rewrite rseq. rewrite cstar_greedy; [reflexivity|discriminate|exact B|reflexivity].
      - destruct b as [|x b]; [reflexivity|]. cbn [app head_not]. cbn [forallb] in B. apply andb_true_iff in B. destruct B as [B _]. revert B. char_cases x. }
    rewrite rseq, plus_greedy; [exact T|exact NE|rewrite T; discriminate|exact A|]. destruct b as [|x b]; [reflexivity|exact C]. }
  unfold match_rest, hex_re. cbn [seqs]. rewrite rseq. unfold hex_token in H. destruct t as [|c r]; [discriminate|]. destruct (Ascii.eqb_spec c "-") as [->|N].
  - cbn [app]. rewrite opt_take; [apply U, H|reflexivity|]. rewrite U by exact H. discriminate.
  - rewrite opt_skip; [apply U, H|]. cbn [app head_not]. unfold is_char. rewrite Ascii.eqb_sym. now apply Ascii.eqb_neq.
Qed.
Lemma hex_start t : hex_token t = true -> match t with c :: _ => is_digit c = true \/ c = "-"%char | [] => False end.
Proof.
  unfold hex_token. destruct t as [|c r]; [discriminate|]. destruct (Ascii.eqb_spec c "-") as [->|N]; [auto|]. intros H. left. cbn [unsigned_hex] in H. apply andb_true_iff in H. apply H.
Qed.
Lemma sym_hex t rest : hex_token t = true -> sym_tokenize ((t ++ ["h"%char]) ++ rest) = put [("HEXNUMBER", t ++ ["h"%char])] (sym_tokenize rest).
Proof.
  intros H. pose proof (hex_start t H) as S. apply (sym_put _ "HEXNUMBER" (t ++ ["h"%char]) rest).
  - unfold sym_lex, sym_specs, front_specs. cbn [app lex_with]. rewrite (hex_match t rest H), consumed_app. destruct t as [|c t]; [contradiction|].
    destruct (digit_start_front c S) as [F1 F2]. cbn [app]. rewrite !mr_first by (reflexivity || assumption). reflexivity.
  - unfold sym_emit. cbn [String.eqb Ascii.eqb Bool.eqb]. rewrite not_keyword; [reflexivity|]. destruct t as [|c t]; [contradiction|]. cbn [app]. now apply digit_not_upper.
Qed.

Lemma sym_string w rest : body_ok w = true -> sym_tokenize ((quote :: w ++ [quote]) ++ rest) = put [("STRING", unescape w)] (sym_tokenize rest).
Proof.
  intros B. apply (sym_put _ "STRING" (quote :: w ++ [quote]) rest).
  - unfold sym_lex, sym_specs, front_specs. cbn [app lex_with]. rewrite !(mr_first _ quote) by reflexivity.
    replace (quote :: (w ++ [quote]) ++ rest) with (quote :: w ++ quote :: rest) by (rewrite <- app_assoc; reflexivity). rewrite string_match by exact B.
    replace (quote :: w ++ quote :: rest) with ((quote :: w ++ [quote]) ++ rest) by (cbn [app]; rewrite <- app_assoc; reflexivity). rewrite consumed_app. reflexivity.
  - unfold sym_emit. cbn [String.eqb Ascii.eqb Bool.eqb]. unfold inner. cbn [tl]. rewrite removelast_snoc. reflexivity.
Qed.
Lemma unit_match u rest : body_ok u = true -> match_rest unit_re (unit_token u ++ rest) = Some rest.
Proof.
  intros B. unfold match_rest, unit_re, unit_token. rewrite <- app_assoc, seq_lit. cbn [rmatch].
  pose proof (string_match u rest B) as M. unfold match_rest in M. replace ((quote :: u ++ [quote]) ++ rest) with (quote :: u ++ quote :: rest) by (cbn [app]; rewrite <- app_assoc; reflexivity).
  rewrite M. reflexivity.
Qed.
Lemma sym_unit u rest : body_ok u = true -> sym_tokenize (unit_token u ++ rest) = put [("/u:", unit_token u)] (sym_tokenize rest).
Proof.
  intros B. apply (sym_put _ "/u:" (unit_token u) rest).
  - unfold sym_lex, sym_specs, front_specs. cbn [app lex_with]. rewrite (unit_match u rest B), consumed_app.
    unfold unit_token. cbn [txt list_ascii_of_string app]. rewrite !mr_first by reflexivity.
    match goal with |- match ?a with _ => _ end = _ => replace a with (@None chars) by reflexivity end. reflexivity.
  - reflexivity.
Qed.
Lemma literal_match l rest : In l literals -> lex_with sym_specs (txt l ++ rest) = Some (l, consumed (txt l ++ rest) rest, rest).
Proof. intros I. cbn [literals In] in I. repeat (destruct I as [<-|I]; [reflexivity|]). contradiction. Qed.
Lemma sym_literal l rest : In l literals -> sym_tokenize (txt l ++ rest) = put [(l, txt l)] (sym_tokenize rest).
Proof.
  intros I. apply (sym_put _ l (txt l) rest).
  - unfold sym_lex. rewrite literal_match by exact I. now rewrite consumed_app.
  - cbn [literals In] in I. repeat (destruct I as [<-|I]; [reflexivity|]). contradiction.
Qed.
Lemma word_front c : word_start c = true -> forallb (fun p => negb (nullable (snd p)) && negb (rfirst (snd p) c)) front_specs = true.
Proof. char_cases c. Qed.
Lemma sym_read_word w rest : sym_word w = true -> head_not word_char rest -> sym_tokenize (w ++ rest) = put [(word_kind w, w)] (sym_tokenize rest).
Proof.
  intros H R. unfold sym_word in H. destruct w as [|c w]; [discriminate|]. apply andb_true_iff in H. destruct H as [H1 H2].
  apply (sym_put _ "WORD" (c :: w) rest); [|reflexivity]. unfold sym_lex, sym_specs. rewrite lex_front by (cbn [app]; now apply word_front).
  apply lex_here. unfold match_rest. rewrite (plus_greedy word_char [] (c :: w) rest (fun _ s' => Some s')) by (auto; discriminate). reflexivity.
Qed.

Lemma sym_piece p rest : spiece_ok p = true -> snext_ok p (match rest with c :: _ => Some c | [] => None end) = true ->
  sym_tokenize (spiece_text p ++ rest) = put (spiece_tokens p) (sym_tokenize rest).
Proof.
  intros O N. destruct p as [b|c|t|t|w|u|l|w]; cbn [spiece_text spiece_tokens spiece_ok] in *.
  - rewrite put_nil. destruct b as [|x b]; [reflexivity|]. apply sym_skip; [discriminate|exact O].
  - now apply sym_comment.
  - now apply sym_hex.
  - apply sym_number; [exact O|]. apply head_next. exact N.
  - now apply sym_string.
  - now apply sym_unit.
  - apply sym_literal. apply existsb_exists in O. destruct O as (q & I & E). apply String.eqb_eq in E. now subst q.
  - apply sym_read_word; [exact O|]. apply head_next. exact N.
Qed.
Lemma sym_pieces ps : forall rest, spok ps (match rest with c :: _ => Some c | [] => None end) = true ->
  sym_tokenize (stext ps ++ rest) = put (stokens ps) (sym_tokenize rest).
Proof.
  induction ps as [|p r IH]; intros rest H; [now rewrite put_nil|].
  cbn [spok] in H. apply andb_true_iff in H. destruct H as [H H2]. apply andb_true_iff in H. destruct H as [O N].
  unfold stext, stokens. cbn [flat_map]. fold (stext r) (stokens r). rewrite <- app_assoc.
  rewrite sym_piece; [|exact O|].
  - rewrite IH by exact H2. now rewrite put_put.
  - unfold sfirst in N. destruct (stext r); exact N.
Qed.
Theorem sym_text_tokens ps : spok ps None = true -> sym_tokenize (stext ps) = Some (stokens ps).
Proof. intros H. pose proof (sym_pieces ps [] H) as P. rewrite app_nil_r in P. rewrite P. cbn. now rewrite app_nil_r. Qed.
