(** DbcLex: how the DBC tokenizer reads words, numbers, strings, symbols and white space. *)
From Coq Require Import Ascii.
From Verif Require Import Base CSource CNames Regex RegexLemmas DecText DbcToken.
Local Open Scope string_scope.
Local Open Scope Z_scope.
Local Open Scope list_scope.

(** ** Progress *)
Lemma rmatch_suffix {X} : forall r c s (k : caps -> chars -> option X) x, rmatch r c s k = Some x ->
  exists c' s', k c' s' = Some x /\ (List.length s' <= List.length s)%nat /\
                (nullable r = false -> (List.length s' < List.length s)%nat).
Proof.
  induction r as [|p|a IHa b IHb|a IHa b IHb|g r IH|n r IH|]; intros c s k x H; cbn [rmatch nullable] in H |- *.
  - exists c, s. split; [exact H|]. split; [lia|discriminate].
  - destruct s as [|y s]; [discriminate|]. destruct (p y); [|discriminate]. exists c, s. cbn [List.length].
    split; [exact H|]. split; [lia|intros _; lia].
  - destruct (IHa _ _ _ _ H) as (c1 & s1 & H1 & L1 & N1). destruct (IHb _ _ _ _ H1) as (c2 & s2 & H2 & L2 & N2).
    exists c2, s2. split; [exact H2|]. split; [lia|]. intros N. apply andb_false_iff in N. destruct N as [N|N]; [specialize (N1 N)|specialize (N2 N)]; lia.
  - destruct (rmatch a c s k) eqn:E.
    + injection H as <-. destruct (IHa _ _ _ _ E) as (c1 & s1 & H1 & L1 & N1). exists c1, s1. split; [exact H1|]. split; [exact L1|].
      intros N. apply orb_false_iff in N. now apply N1.
    + destruct (IHb _ _ _ _ H) as (c1 & s1 & H1 & L1 & N1). exists c1, s1. split; [exact H1|]. split; [exact L1|].
      intros N. apply orb_false_iff in N. now apply N1.
  - remember (List.length s) as fuel eqn:F in H. clear F. revert x c s H. induction fuel as [|f IHf]; intros x c s H.
    + exists c, s. split; [exact H|]. split; [lia|discriminate].
    + assert (I : rmatch r c s (fun c' s' => if Nat.ltb (List.length s') (List.length s) then
                  (fix star (fuel : nat) (c : caps) (s : chars) : option X :=
         match fuel with
         | O => k c s
         | S f =>
             if g then
               match rmatch r c s (fun c' s' => if Nat.ltb (List.length s') (List.length s) then star f c' s' else None) with
               | Some x => Some x
               | None => k c s
               end
             else
               match k c s with
               | Some x => Some x
               | None => rmatch r c s (fun c' s' => if Nat.ltb (List.length s') (List.length s) then star f c' s' else None)
               end
         end) f c' s' else None) = Some x ->
         exists c' s', k c' s' = Some x /\ (List.length s' <= List.length s)%nat /\ (true = false -> (List.length s' < List.length s)%nat)).
      { intros H'. destruct (IH _ _ _ _ H') as (c1 & s1 & H1 & L1 & _). destruct (Nat.ltb_spec (List.length s1) (List.length s)) as [L|L]; [|discriminate].
        destruct (IHf x _ _ H1) as (c2 & s2 & H2 & L2 & _). exists c2, s2. split; [exact H2|]. split; [lia|discriminate]. }
      assert (J : k c s = Some x -> exists c' s', k c' s' = Some x /\ (List.length s' <= List.length s)%nat /\ (true = false -> (List.length s' < List.length s)%nat)).
      { intros H'. exists c, s. split; [exact H'|]. split; [lia|discriminate]. }
      destruct g.
      * match type of H with match ?t with _ => _ end = _ => destruct t eqn:E end; [apply I; congruence|apply J; exact H].
      * destruct (k c s) eqn:E; [apply J; congruence|apply I; exact H].
  - destruct (IH _ _ _ _ H) as (c1 & s1 & H1 & L1 & N1). eexists _, s1. split; [exact H1|]. split; [exact L1|exact N1].
  - destruct s as [|y [|z s]]; [exists c, []|destruct (Ascii.eqb y newline); [exists c, [y]|discriminate]|discriminate];
      (split; [exact H|]; split; [lia|discriminate]).
Qed.

Lemma lex_with_progress : forall specs s k v s', forallb (fun p => negb (nullable (snd p))) specs = true ->
  lex_with specs s = Some (k, v, s') -> (List.length s' < List.length s)%nat.
Proof.
  induction specs as [|[n r] specs IH]; intros s k v s' N H; [discriminate|]. cbn [forallb snd] in N. apply andb_true_iff in N. destruct N as [N1 N2].
  cbn [lex_with] in H. destruct (match_rest r s) as [t|] eqn:E; [|exact (IH _ _ _ _ N2 H)].
  injection H as _ _ <-. unfold match_rest in E. destruct (rmatch_suffix _ _ _ _ _ E) as (c1 & s1 & K & _ & L).
  injection K as <-. apply L. now apply negb_true_iff in N1.
Qed.
Lemma lex_progress s k v s' : lex s = Some (k, v, s') -> (List.length s' < List.length s)%nat.
Proof. apply lex_with_progress. reflexivity. Qed.

Lemma tokens_fuel_enough : forall f s, (List.length s <= f)%nat -> tokens_fuel f s = tokenize s.
Proof.
  unfold tokenize.
  assert (G : forall n f s, (List.length s <= n)%nat -> (List.length s <= f)%nat -> tokens_fuel f s = tokens_fuel (List.length s) s).
  { induction n as [|n IH]; intros f s N F.
    - destruct s; [destruct f; reflexivity|cbn [List.length] in N; lia].
    - destruct s as [|x s]; [destruct f; reflexivity|]. destruct f as [|f]; [cbn [List.length] in F; lia|].
      cbn [tokens_fuel List.length]. destruct (lex (x :: s)) as [[[k v] s']|] eqn:E; [|reflexivity].
      pose proof (lex_progress _ _ _ _ E) as P. cbn [List.length] in P, N, F.
      rewrite (IH f s') by lia. rewrite (IH (List.length s) s') by lia. reflexivity. }
  intros f s F. apply (G (List.length s)); lia.
Qed.

Lemma tokenize_nil : tokenize [] = Some []. Proof. reflexivity. Qed.
Lemma tokenize_step s k v s' : lex s = Some (k, v, s') ->
  tokenize s = match emit k v, tokenize s' with Some t, Some ts => Some (t ++ ts) | _, _ => None end.
Proof.
  intros E. pose proof (lex_progress _ _ _ _ E) as P. unfold tokenize at 1. destruct s as [|x s]; [cbn in P; lia|].
  cbn [List.length] in *. cbn [tokens_fuel]. rewrite E. rewrite tokens_fuel_enough by lia. reflexivity.
Qed.

(** Prepending tokens *)
Definition put (t : list token) (r : option (list token)) : option (list token) := option_map (app t) r.
Lemma put_put a b r : put a (put b r) = put (a ++ b) r.
Proof. destruct r; cbn; [rewrite app_assoc|]; reflexivity. Qed.
Lemma put_nil r : put [] r = r. Proof. destruct r; reflexivity. Qed.
Lemma tokenize_put s k v s' t : lex s = Some (k, v, s') -> emit k v = Some t -> tokenize s = put t (tokenize s').
Proof. intros E M. rewrite (tokenize_step _ _ _ _ E), M. destruct (tokenize s'); reflexivity. Qed.

(** ** Matching at the start of a text *)
Lemma mr_first r x s : nullable r = false -> rfirst r x = false -> match_rest r (x :: s) = None.
Proof. apply first_reject. Qed.

Section M.
Context {X : Type}.
Implicit Types k : caps -> chars -> option X.
Lemma opt_take p c x s k : p x = true -> k c s <> None -> rmatch (Opt (Chr p)) c (x :: s) k = k c s.
Proof. intros P K. unfold Opt. cbn [rmatch]. rewrite P. destruct (k c s); [reflexivity|congruence]. Qed.
Lemma opt_skip p c s k : head_not p s -> rmatch (Opt (Chr p)) c s k = k c s.
Proof. intros P. unfold Opt. cbn [rmatch]. destruct s as [|x s]; [reflexivity|]. cbn in P. rewrite P. reflexivity. Qed.
Lemma opt_skip_re r c s k : nullable r = false -> match s with [] => True | x :: _ => rfirst r x = false end -> rmatch (Opt r) c s k = k c s.
Proof.
  intros N F. unfold Opt. cbn [rmatch]. destruct s as [|x s]; [rewrite nil_reject by exact N|rewrite first_reject by assumption]; reflexivity.
Qed.
Lemma plus_greedy p c w rest k : w <> [] -> k c rest <> None -> forallb p w = true -> head_not p rest ->
  rmatch (Plus true (Chr p)) c (w ++ rest) k = k c rest.
Proof.
  intros NE K W H. destruct w as [|x w]; [congruence|]. cbn [forallb] in W. apply andb_true_iff in W. destruct W as [W1 W2].
  unfold Plus. cbn [app]. change (rmatch (Seq (Chr p) (Star true (Chr p))) c (x :: w ++ rest) k) with (if p x then rmatch (Star true (Chr p)) c (w ++ rest) k else None).
  rewrite W1. now apply cstar_greedy.
Qed.
End M.
Lemma rseq {X} a b c s (k : caps -> chars -> option X) : rmatch (Seq a b) c s k = rmatch a c s (fun c' s' => rmatch b c' s' k).
Proof. reflexivity. Qed.

(** ** White space *)
Lemma tokenize_skip w rest : w <> [] -> forallb skip_char w = true -> tokenize (w ++ rest) = tokenize rest.
Proof.
  assert (G : forall w rest, w <> [] -> forallb skip_char w = true -> head_not skip_char rest -> tokenize (w ++ rest) = tokenize rest).
  { clear. intros w rest NE W H. rewrite <- (put_nil (tokenize rest)). apply (tokenize_put _ "SKIP" w rest); [|reflexivity].
    unfold lex. cbn [token_specs lex_with]. unfold match_rest, skip_re. cbn [rmatch].
    change (rmatch (Plus true (Chr skip_char)) [] (w ++ rest) (fun _ s' => Some s')) with (rmatch (Plus true (Chr skip_char)) [] (w ++ rest) (fun _ s' => Some s')).
    rewrite (plus_greedy skip_char [] w rest (fun _ s' => Some s')) by (auto; discriminate). rewrite consumed_app. reflexivity. }
  intros NE W.
  (* the longest run of white space *)
  assert (S : exists w' rest', rest = w' ++ rest' /\ forallb skip_char w' = true /\ head_not skip_char rest').
  { clear. induction rest as [|x rest IH]; [exists [], []; cbn; auto|]. destruct (skip_char x) eqn:E.
    - destruct IH as (w' & r' & -> & A & B). exists (x :: w'), r'. cbn [forallb app]. rewrite E. auto.
    - exists [], (x :: rest). cbn. auto. }
  destruct S as (w' & rest' & -> & W' & H). rewrite app_assoc. rewrite G; [|destruct w; [congruence|discriminate]|rewrite forallb_app, W, W'; reflexivity|exact H].
  destruct w' as [|x w']; [reflexivity|]. symmetry. apply G; [discriminate|exact W'|exact H].
Qed.

(** ** Words *)
Definition not_word_head : chars -> Prop := head_not is_word.
Definition name_start (c : ascii) : bool := is_word c && negb (is_digit c).
Definition word_text (w : chars) : bool := match w with c :: _ => name_start c && forallb is_word w | [] => false end.
Ltac char_cases c := destruct c as [[] [] [] [] [] [] [] []]; try reflexivity; try discriminate.
Lemma name_start_reject c : name_start c = true -> rfirst skip_re c = false /\ rfirst number_re c = false.
Proof. char_cases c; intros; split; reflexivity. Qed.
Lemma tokenize_word w rest : word_text w = true -> not_word_head rest ->
  tokenize (w ++ rest) = put [(if is_keyword w then string_of_list_ascii w else "WORD", w)] (tokenize rest).
Proof.
  intros W H. apply (tokenize_put _ "WORD" w rest); [|reflexivity].
  unfold word_text in W. destruct w as [|c w]; [discriminate|]. apply andb_true_iff in W. destruct W as [W1 W2].
  destruct (name_start_reject c W1) as [R1 R2].
  unfold lex. cbn [token_specs lex_with app]. rewrite !mr_first by (reflexivity || assumption).
  unfold match_rest at 1, word_re. change (c :: w ++ rest) with ((c :: w) ++ rest).
  rewrite plus_greedy by (assumption || discriminate). rewrite consumed_app. reflexivity.
Qed.

(** ** Symbols *)
Definition symbols : list (ascii * string) :=
  [("("%char, "("); (")"%char, ")"); ("["%char, "["); ("]"%char, "]"); (","%char, ","); ("|"%char, "|"); ("@"%char, "@");
   (";"%char, ";"); (":"%char, ":")].
Lemma mr_char p c rest : p c = true -> match_rest (Chr p) (c :: rest) = Some rest.
Proof. intros P. unfold match_rest. cbn [rmatch]. rewrite P. reflexivity. Qed.
Lemma consumed_one (c : ascii) rest : consumed (c :: rest) rest = [c].
Proof. exact (consumed_app [c] rest). Qed.
Lemma tokenize_symbol c n rest : In (c, n) symbols -> tokenize (c :: rest) = put [(n, [c])] (tokenize rest).
Proof.
  intros I. apply (tokenize_put _ n [c] rest).
  - cbn [symbols In] in I. unfold lex. cbn [token_specs lex_with].
    repeat (destruct I as [I|I]; [apply pair_equal_spec in I; destruct I as [<- <-];
      rewrite !mr_first by reflexivity; rewrite mr_char by reflexivity; rewrite consumed_one; reflexivity|]). contradiction.
  - cbn [symbols In] in I. repeat (destruct I as [I|I]; [apply pair_equal_spec in I; destruct I as [<- <-]; reflexivity|]). contradiction.
Qed.
Lemma tokenize_sign c rest : is_sign c = true -> head_not is_digit rest -> tokenize (c :: rest) = put [("+/-", [c])] (tokenize rest).
Proof.
  intros S H. apply (tokenize_put _ "+/-" [c] rest).
  - unfold lex. cbn [token_specs lex_with].
    assert (N : match_rest number_re (c :: rest) = None).
    { unfold match_rest, number_re. cbn [seqs]. rewrite rseq. unfold Opt at 1. cbn [rmatch]. rewrite S.
      assert (Q : forall (k : caps -> chars -> option chars), rmatch (Plus true (Chr is_digit)) [] rest k = None).
      { intros k. unfold Plus. rewrite rseq. cbn [rmatch]. destruct rest as [|x r]; [reflexivity|]. cbn in H. rewrite H. reflexivity. }
      rewrite Q. unfold Plus. cbn [rmatch].
      replace (is_digit c) with false; [reflexivity|]. revert S. char_cases c. }
    rewrite N. assert (C : c = "-"%char \/ c = "+"%char).
    { unfold is_sign in S. apply orb_true_iff in S. destruct S as [S|S]; apply Ascii.eqb_eq in S; auto. }
    clear S N. destruct C as [->| ->]; rewrite !mr_first by reflexivity; rewrite mr_char by reflexivity; rewrite consumed_one; reflexivity.
  - revert S. char_cases c.
Qed.

(** ** Numbers *)
(** The parts of a number: sign, digits, digits after a point, exponent *)
Record number_parts := Num { n_sign : chars; n_int : chars; n_frac : option chars; n_exp : option (ascii * chars * chars) }.
Definition number_text (n : number_parts) : chars :=
  n_sign n ++ n_int n ++ match n_frac n with Some f => "."%char :: f | None => [] end ++
  match n_exp n with Some (e, s, d) => e :: s ++ d | None => [] end.
Definition sign_text (s : chars) : bool := match s with [] => true | [c] => is_sign c | _ => false end.
Definition digits_text (d : chars) : bool := match d with [] => false | _ => forallb is_digit d end.
Definition number_ok (n : number_parts) : bool :=
  sign_text (n_sign n) && digits_text (n_int n) && match n_frac n with Some f => forallb is_digit f | None => true end &&
  match n_exp n with Some (e, s, d) => is_exp e && sign_text s && digits_text d | None => true end.
(** A character that may continue a number *)
Definition num_char (c : ascii) : bool := is_digit c || Ascii.eqb c "." || is_exp c.

Lemma digits_text_ok d : digits_text d = true -> d <> [] /\ forallb is_digit d = true.
Proof. destruct d; [discriminate|]. intros H. split; [discriminate|exact H]. Qed.
Lemma head_weaken (p q : ascii -> bool) s : (forall c, p c = true -> q c = true) -> head_not q s -> head_not p s.
Proof. destruct s as [|c s]; [auto|]. cbn. intros H Q. destruct (p c) eqn:E; [|reflexivity]. apply H in E. congruence. Qed.
Lemma num_char_digit c : is_digit c = true -> num_char c = true.
Proof. unfold num_char. intros ->. reflexivity. Qed.
Lemma is_char_eq x c : is_char x c = true -> c = x.
Proof. unfold is_char. intros H. apply Ascii.eqb_eq in H. now symmetry. Qed.
Lemma num_char_point c : is_char "." c = true -> num_char c = true.
Proof. intros H. apply is_char_eq in H. subst c. reflexivity. Qed.
Lemma num_char_exp c : is_exp c = true -> num_char c = true.
Proof. unfold num_char. intros ->. now rewrite !orb_true_r. Qed.
Lemma is_exp_not_digit e : is_exp e = true -> is_digit e = false.
Proof. unfold is_exp. intros H. apply orb_true_iff in H. destruct H as [H|H]; apply Ascii.eqb_eq in H; subst e; reflexivity. Qed.
Lemma is_exp_not_point e : is_exp e = true -> is_char "." e = false.
Proof. unfold is_exp. intros H. apply orb_true_iff in H. destruct H as [H|H]; apply Ascii.eqb_eq in H; subst e; reflexivity. Qed.
Lemma sign_not_digit c : is_sign c = true -> is_digit c = false.
Proof. unfold is_sign. intros H. apply orb_true_iff in H. destruct H as [H|H]; apply Ascii.eqb_eq in H; subst c; reflexivity. Qed.
Lemma digit_not_sign c : is_digit c = true -> is_sign c = false.
Proof. intros D. destruct (is_sign c) eqn:S; [|reflexivity]. apply sign_not_digit in S. congruence. Qed.
Lemma digits_head_not_sign d s : digits_text d = true -> head_not is_sign (d ++ s).
Proof. destruct d as [|c d]; [discriminate|]. cbn. intros H. apply andb_true_iff in H. apply digit_not_sign, H. Qed.
Lemma sign_opt {X} sg c s (k : caps -> chars -> option X) : sign_text sg = true -> head_not is_sign s -> k c s <> None ->
  rmatch (Opt (Chr is_sign)) c (sg ++ s) k = k c s.
Proof.
  intros S H K. destruct sg as [|x [|y r]]; [now apply opt_skip| |discriminate]. cbn [app]. now apply opt_take.
Qed.

Lemma exp_match (n_e : option (ascii * chars * chars)) rest :
  match n_e with Some (e, s, d) => is_exp e && sign_text s && digits_text d | None => true end = true -> head_not num_char rest ->
  rmatch (Opt (seqs [Chr is_exp; Opt (Chr is_sign); Plus true (Chr is_digit)])) []
    (match n_e with Some (e, s, d) => e :: s ++ d | None => [] end ++ rest) (fun (_ : caps) s' => Some s') = Some rest.
Proof.
  intros H R. pose proof (head_weaken _ _ _ num_char_digit R) as R1. destruct n_e as [[[e s] d]|].
  - apply andb_true_iff in H. destruct H as [H D]. apply andb_true_iff in H. destruct H as [E S].
    unfold Opt at 1. cbn [seqs app]. cbn [rmatch]. rewrite E. rewrite <- app_assoc.
    destruct (digits_text_ok d D) as [NE DD].
    assert (P : rmatch (Plus true (Chr is_digit)) [] (d ++ rest) (fun (_ : caps) s' => Some s') = Some rest).
    { rewrite plus_greedy; [reflexivity|exact NE|discriminate|exact DD|exact R1]. }
    change (match rmatch (Opt (Chr is_sign)) [] (s ++ d ++ rest) (fun c' s' => rmatch (Plus true (Chr is_digit)) c' s' (fun _ s'' => Some s'')) with
            | Some x => Some x | None => Some (e :: s ++ d ++ rest) end = Some rest).
    rewrite sign_opt; [rewrite P; reflexivity|exact S|now apply digits_head_not_sign|]. rewrite P. discriminate.
  - cbn [app]. rewrite opt_skip_re; [reflexivity|reflexivity|]. pose proof (head_weaken _ _ _ num_char_exp R) as R2. destruct rest as [|x r]; [exact I|].
    cbn in R2 |- *. now rewrite R2.
Qed.

Lemma number_match n rest : number_ok n = true -> head_not num_char rest -> match_rest number_re (number_text n ++ rest) = Some rest.
Proof.
  intros H R. unfold number_ok in H. apply andb_true_iff in H. destruct H as [H HE]. apply andb_true_iff in H. destruct H as [H HF].
  apply andb_true_iff in H. destruct H as [HS HI]. destruct n as [sg ds fr ex]. cbn [n_sign n_int n_frac n_exp] in *.
  unfold number_text. cbn [n_sign n_int n_frac n_exp]. rewrite <- !app_assoc.
  set (tail := match ex with Some (e, s, d) => e :: s ++ d | None => [] end ++ rest).
  assert (TM : forall c', rmatch (Opt (seqs [Chr is_exp; Opt (Chr is_sign); Plus true (Chr is_digit)])) c' tail (fun (_ : caps) s' => Some s') = Some rest \/ c' <> []).
  { intros c'. destruct c' as [|x c']; [left|right; discriminate]. apply exp_match; assumption. }
  assert (T := exp_match ex rest HE R). fold tail in T. clear TM.
  assert (TD : head_not is_digit tail).
  { unfold tail. destruct ex as [[[e s] d]|]; [|exact (head_weaken _ _ _ num_char_digit R)]. cbn.
    apply is_exp_not_digit. apply andb_true_iff in HE. destruct HE as [HE _]. now apply andb_true_iff in HE. }
  assert (TP : head_not (is_char ".") tail).
  { unfold tail. destruct ex as [[[e s] d]|]; [|exact (head_weaken _ _ _ num_char_point R)]. cbn.
    apply is_exp_not_point. apply andb_true_iff in HE. destruct HE as [HE _]. now apply andb_true_iff in HE. }
  clearbody tail. destruct (digits_text_ok ds HI) as [NE DD].
  unfold match_rest, number_re. cbn [seqs].
  set (E := Opt (Seq (Chr is_exp) (Seq (Opt (Chr is_sign)) (Plus true (Chr is_digit))))) in *. cbn [seqs] in T. fold E in T.
  set (K := fun (_ : caps) (s' : chars) => Some s') in *.
  (* after the digits *)
  assert (F : rmatch (Opt (Chr (is_char "."))) [] (match fr with Some f => "."%char :: f | None => [] end ++ tail)
               (fun c' s' => rmatch (Star true (Chr is_digit)) c' s' (fun c'' s'' => rmatch E c'' s'' K)) = Some rest).
  { destruct fr as [f|].
    - cbn [app]. rewrite opt_take; [rewrite cstar_greedy; [exact T| |exact HF|exact TD]|reflexivity|rewrite cstar_greedy; [| |exact HF|exact TD]];
        rewrite T; discriminate.
    - cbn [app]. rewrite opt_skip by exact TP. rewrite cstar_head by exact TD. exact T. }
  rewrite rseq.
  assert (DN : head_not is_digit (match fr with Some f => "."%char :: f | None => [] end ++ tail)) by (destruct fr; [reflexivity|exact TD]).
  assert (P : rmatch (Plus true (Chr is_digit)) [] (ds ++ match fr with Some f => "."%char :: f | None => [] end ++ tail)
     (fun c' s' => rmatch (Seq (Opt (Chr (is_char "."))) (Seq (Star true (Chr is_digit)) E)) c' s' K) = Some rest).
  { rewrite plus_greedy; [exact F|exact NE| |exact DD|exact DN]. intros Q. pose proof (eq_trans (eq_sym Q) F) as QF. discriminate QF. }
  rewrite sign_opt; [rewrite rseq; exact P|exact HS|now apply digits_head_not_sign|]. rewrite rseq. rewrite P. discriminate.
Qed.

Definition num_start (c : ascii) : bool := is_digit c || is_sign c.
Lemma number_text_start n : number_ok n = true -> match number_text n with c :: _ => num_start c = true | [] => False end.
Proof.
  intros H. unfold number_ok in H. apply andb_true_iff in H. destruct H as [H _]. apply andb_true_iff in H. destruct H as [H _].
  apply andb_true_iff in H. destruct H as [HS HI]. unfold number_text. destruct (n_sign n) as [|x [|y r]]; [| |discriminate].
  - cbn [app]. destruct (n_int n) as [|d ds]; [discriminate|]. cbn [app]. cbn [digits_text forallb] in HI. apply andb_true_iff in HI.
    unfold num_start. rewrite (proj1 HI). reflexivity.
  - cbn [app sign_text] in *. unfold num_start. rewrite HS. apply orb_true_r.
Qed.
Lemma num_start_skip c : num_start c = true -> rfirst skip_re c = false.
Proof. char_cases c. Qed.
Lemma keyword_start w : is_keyword w = true -> match w with c :: _ => num_start c = false | [] => False end.
Proof.
  unfold is_keyword. intros H. apply existsb_exists in H. destruct H as (k & K & E). apply String.eqb_eq in E. 
  assert (W : w = list_ascii_of_string k) by (rewrite <- E, list_ascii_of_string_of_list_ascii; reflexivity). subst w. clear E.
  cbn [keywords In] in K. repeat (destruct K as [<-|K]; [reflexivity|]). contradiction.
Qed.
Lemma tokenize_number n rest : number_ok n = true -> head_not num_char rest ->
  tokenize (number_text n ++ rest) = put [("NUMBER", number_text n)] (tokenize rest).
Proof.
  intros H R. pose proof (number_text_start n H) as S. apply (tokenize_put _ "NUMBER" (number_text n) rest).
  - unfold lex. cbn [token_specs lex_with]. rewrite (number_match n rest H R), consumed_app.
    destruct (number_text n) as [|c t]; [contradiction|]. cbn [app]. rewrite mr_first; [reflexivity|reflexivity|now apply num_start_skip].
  - unfold emit. cbn [String.eqb Ascii.eqb Bool.eqb]. destruct (is_keyword (number_text n)) eqn:K; [|reflexivity].
    apply keyword_start in K. destruct (number_text n); [contradiction|congruence].
Qed.

(** Integers *)
Definition int_number (z : Z) : number_parts := Num (if z <? 0 then ["-"%char] else []) (decimal (Z.abs z)) None None.
Lemma int_number_text z : number_text (int_number z) = decimal z.
Proof.
  unfold number_text, int_number. cbn [n_sign n_int n_frac n_exp app]. rewrite app_nil_r.
  destruct (Z.ltb_spec z 0) as [H|H]; cbn [app].
  - rewrite (decimal_neg z H). f_equal. f_equal. lia.
  - f_equal. lia.
Qed.
Lemma int_number_ok z : number_ok (int_number z) = true.
Proof.
  unfold number_ok, int_number. cbn [n_sign n_int n_frac n_exp]. rewrite !andb_true_r.
  assert (D : digits_text (decimal (Z.abs z)) = true).
  { unfold digits_text. pose proof (decimal_nonnil (Z.abs z)). pose proof (decimal_digits (Z.abs z) ltac:(lia)). destruct (decimal (Z.abs z)); [congruence|assumption]. }
  rewrite D. destruct (z <? 0); reflexivity.
Qed.
Lemma tokenize_int z rest : head_not num_char rest -> tokenize (decimal z ++ rest) = put [("NUMBER", decimal z)] (tokenize rest).
Proof. intros R. rewrite <- (int_number_text z). apply tokenize_number; [apply int_number_ok|exact R]. Qed.

(** ** Strings *)
(** A text that ends at the next quote when it is put between quotes: every backslash before a quote belongs to it,
    and the text does not end in a backslash. *)
Fixpoint body_ok (w : chars) : bool :=
  match w with
  | [] => true
  | c :: t => if Ascii.eqb c backslash
              then match t with [] => false | d :: r => if Ascii.eqb d quote then body_ok r else body_ok t end
              else negb (Ascii.eqb c quote) && body_ok t
  end.
Lemma body_ind (P : chars -> Prop) : P [] -> (forall w, P w -> P (backslash :: quote :: w)) ->
  (forall c w, c <> quote -> (c = backslash -> exists d r, w = d :: r /\ d <> quote) -> P w -> P (c :: w)) ->
  forall w, body_ok w = true -> P w.
Proof.
  intros P0 P2 P1 w. remember (List.length w) as n eqn:L. assert (LE : (List.length w <= n)%nat) by lia. clear L. revert w LE.
  induction n as [|n IH]; intros w LE B.
  - destruct w; [exact P0|cbn in LE; lia].
  - destruct w as [|c t]; [exact P0|]. cbn [body_ok] in B. cbn [List.length] in LE. destruct (Ascii.eqb_spec c backslash) as [->|NB].
    + destruct t as [|d r]; [discriminate|]. destruct (Ascii.eqb_spec d quote) as [->|ND].
      * apply P2. apply IH; [cbn in LE; lia|exact B].
      * apply P1; [discriminate|intros _; eauto|]. apply IH; [lia|exact B].
    + apply andb_true_iff in B. destruct B as [B1 B2]. apply negb_true_iff, Ascii.eqb_neq in B1. apply P1; [exact B1|congruence|]. apply IH; [lia|exact B2].
Qed.

(** The repetition with a given bound on the rounds *)
Definition lazy_star {X} (r : re) (k : caps -> chars -> option X) :=
  fix star (fuel : nat) (c : caps) (s : chars) : option X :=
    match fuel with
    | O => k c s
    | S f => match k c s with
             | Some x => Some x
             | None => rmatch r c s (fun c' s' => if Nat.ltb (List.length s') (List.length s) then star f c' s' else None)
             end
    end.
Lemma lazy_star_eq {X} r c s (k : caps -> chars -> option X) : rmatch (Star false r) c s k = lazy_star r k (List.length s) c s.
Proof. reflexivity. Qed.
Lemma lazy_star_S {X} r (k : caps -> chars -> option X) f c s : lazy_star r k (S f) c s =
  match k c s with
  | Some x => Some x
  | None => rmatch r c s (fun c' s' => if Nat.ltb (List.length s') (List.length s) then lazy_star r k f c' s' else None)
  end.
Proof. reflexivity. Qed.
Lemma string_body_pair {X} c s (k : caps -> chars -> option X) : k c s <> None -> rmatch string_body c (backslash :: quote :: s) k = k c s.
Proof. intros K. unfold string_body. cbn [rmatch]. cbn. destruct (k c s); [reflexivity|congruence]. Qed.
Lemma string_body_one {X} c x s (k : caps -> chars -> option X) : x <> quote -> (x = backslash -> match s with y :: _ => y <> quote | [] => True end) ->
  rmatch string_body c (x :: s) k = k c s.
Proof.
  intros NQ NB. unfold string_body. cbn [rmatch].
  assert (Q : negb (Ascii.eqb x quote) = true) by (apply negb_true_iff, Ascii.eqb_neq, NQ). rewrite Q.
  destruct (is_char backslash x) eqn:B; [|reflexivity]. apply is_char_eq in B. destruct s as [|y s]; [reflexivity|].
  destruct (is_char quote y) eqn:E; [|reflexivity]. apply is_char_eq in E. now destruct (NB B).
Qed.
Lemma string_lazy {X} (k : caps -> chars -> option X) w rest out : k [] (quote :: rest) = Some out ->
  (forall x s, x <> quote -> k [] (x :: s) = None) -> body_ok w = true ->
  forall fuel, (List.length w <= fuel)%nat -> lazy_star string_body k fuel [] (w ++ quote :: rest) = Some out.
Proof.
  intros K0 K1 B. revert w B. refine (body_ind _ _ _ _).
  - intros fuel _. cbn [app]. destruct fuel; [exact K0|]. rewrite lazy_star_S, K0. reflexivity.
  - intros w IH fuel L. cbn [List.length] in L. destruct fuel as [|fuel]; [lia|]. cbn [app]. rewrite lazy_star_S, K1 by discriminate.
    assert (LT : Nat.ltb (List.length (w ++ quote :: rest)) (List.length (backslash :: quote :: w ++ quote :: rest)) = true) by (apply Nat.ltb_lt; cbn [List.length]; lia).
    rewrite string_body_pair; rewrite LT, IH by lia; [reflexivity|discriminate].
  - intros c w NQ NB IH fuel L. cbn [List.length] in L. destruct fuel as [|fuel]; [lia|]. cbn [app]. rewrite lazy_star_S, K1 by exact NQ.
    assert (LT : Nat.ltb (List.length (w ++ quote :: rest)) (List.length (c :: w ++ quote :: rest)) = true) by (apply Nat.ltb_lt; cbn [List.length]; lia).
    rewrite string_body_one; [rewrite LT; apply IH; lia|exact NQ|]. intros E. destruct (NB E) as (d & r & -> & D). exact D.
Qed.
Lemma string_match w rest : body_ok w = true -> match_rest string_re (quote :: w ++ quote :: rest) = Some rest.
Proof.
  intros B. unfold match_rest, string_re. cbn [seqs]. rewrite seq_chr. change (is_char quote quote) with true. cbn iota.
  rewrite rseq, lazy_star_eq. apply string_lazy; [reflexivity| |exact B|rewrite app_length; lia].
  intros x s NQ. cbn [rmatch]. destruct (is_char quote x) eqn:E; [apply is_char_eq in E; congruence|reflexivity].
Qed.
Lemma removelast_snoc {A} (l : list A) x : removelast (l ++ [x]) = l.
Proof. rewrite removelast_app by discriminate. cbn. apply app_nil_r. Qed.
Lemma tokenize_string w rest : body_ok w = true ->
  tokenize (quote :: w ++ quote :: rest) = put [("STRING", unescape w)] (tokenize rest).
Proof.
  intros B. apply (tokenize_put _ "STRING" (quote :: w ++ [quote]) rest).
  - unfold lex. cbn [token_specs lex_with]. rewrite string_match by exact B. rewrite !mr_first by reflexivity.
    replace (consumed (quote :: w ++ quote :: rest) rest) with (quote :: w ++ [quote]); [reflexivity|].
    replace (quote :: w ++ quote :: rest) with ((quote :: w ++ [quote]) ++ rest) by (cbn [app]; rewrite <- app_assoc; reflexivity).
    symmetry. apply consumed_app.
  - unfold emit. cbn [String.eqb Ascii.eqb Bool.eqb]. unfold inner. cbn [tl]. rewrite removelast_snoc. reflexivity.
Qed.

(** ** Escaping *)
Lemma unescape_plain c s : (c <> backslash \/ match s with d :: _ => d <> quote | [] => True end) -> unescape (c :: s) = c :: unescape s.
Proof.
  intros H. destruct s as [|d r]; [reflexivity|]. cbn [unescape].
  destruct (Ascii.eqb_spec c backslash) as [->|N]; [|reflexivity]. destruct (Ascii.eqb_spec d quote) as [->|N]; [|reflexivity].
  destruct H; congruence.
Qed.
Lemma escape_cons c s : escape (c :: s) = (if Ascii.eqb c quote then [backslash; quote] else [c]) ++ escape s.
Proof. reflexivity. Qed.
Lemma escape_head s : match escape s with d :: _ => d <> quote | [] => True end.
Proof. destruct s as [|c s]; [exact I|]. rewrite escape_cons. destruct (Ascii.eqb_spec c quote) as [->|N]; cbn; [discriminate|exact N]. Qed.
Lemma unescape_escape s : unescape (escape s) = s.
Proof.
  induction s as [|c s IH]; [reflexivity|]. rewrite escape_cons. destruct (Ascii.eqb_spec c quote) as [->|N].
  - cbn [app]. cbn [unescape]. cbn. f_equal. exact IH.
  - cbn [app]. rewrite unescape_plain by (right; apply escape_head). now rewrite IH.
Qed.
Definition ends_in_backslash (s : chars) : bool := Ascii.eqb (last s "x"%char) backslash.
Lemma escape_body s : ends_in_backslash s = false -> body_ok (escape s) = true.
Proof.
  induction s as [|c s IH]; [reflexivity|]. intros H.
  assert (HS : s <> [] -> ends_in_backslash s = false).
  { intros NE. destruct s as [|d s]; [congruence|]. exact H. }
  rewrite escape_cons. destruct (Ascii.eqb_spec c quote) as [->|N].
  - cbn. destruct s as [|d s]; [reflexivity|]. apply IH, HS. discriminate.
  - cbn [app body_ok]. destruct (Ascii.eqb_spec c backslash) as [->|NB].
    + destruct s as [|d s]; [discriminate H|]. specialize (IH (HS ltac:(discriminate))). pose proof (escape_head (d :: s)) as EH.
      destruct (escape (d :: s)) as [|e r] eqn:E.
      * rewrite escape_cons in E. destruct (Ascii.eqb d quote); discriminate E.
      * apply Ascii.eqb_neq in EH. rewrite EH. exact IH.
    + apply Ascii.eqb_neq in N. rewrite N. cbn. destruct s as [|d s]; [reflexivity|]. apply IH, HS. discriminate.
Qed.
(** A text without quotes that does not end in a backslash needs no escaping. *)
Definition plain_text (s : chars) : bool := forallb (fun c => negb (Ascii.eqb c quote)) s && negb (ends_in_backslash s).
Lemma escape_plain s : forallb (fun c => negb (Ascii.eqb c quote)) s = true -> escape s = s.
Proof.
  induction s as [|c s IH]; [reflexivity|]. cbn [forallb]. intros H. apply andb_true_iff in H. destruct H as [H1 H2].
  apply negb_true_iff in H1. rewrite escape_cons, H1. cbn [app]. now rewrite IH.
Qed.
Lemma plain_body s : plain_text s = true -> body_ok s = true /\ unescape s = s.
Proof.
  unfold plain_text. intros H. apply andb_true_iff in H. destruct H as [H1 H2]. apply negb_true_iff in H2.
  pose proof (escape_plain s H1) as E. split; [rewrite <- E; now apply escape_body|]. rewrite <- E at 1. apply unescape_escape.
Qed.
