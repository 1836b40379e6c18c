(** DbcGrammar: the grammar reads the tokens of a statement as that statement. *)
From Coq Require Import Ascii.
From Verif Require Import Base CSource CNames Regex RegexLemmas DecText DbcToken DbcLex DbcStmt DbcPieces DbcParse.
Local Open Scope string_scope.
Local Open Scope Z_scope.
Local Open Scope list_scope.

(** ** Repetition *)
Definition head_kind (ts : list token) : string := match ts with (k, _) :: _ => k | [] => "" end.
Lemma many_fuel_flat {A} (p : parser A) (f : A -> list token) (Q : list token -> Prop) l :
  (forall x r, In x l -> Q r -> p (f x ++ r) = Some (x, r)) -> (forall x r, In x l -> Q r -> Q (f x ++ r)) ->
  forall rest n, Q rest -> p rest = None -> (List.length l <= n)%nat -> many_fuel n p (flat_map f l ++ rest) = Some (l, rest).
Proof.
  induction l as [|x l IH]; intros P QQ rest n Qr N L.
  - cbn [flat_map app]. destruct n; [reflexivity|]. cbn [many_fuel]. now rewrite N.
  - destruct n as [|n]; [cbn in L; lia|]. cbn [flat_map many_fuel]. rewrite <- app_assoc.
    assert (QT : Q (flat_map f l ++ rest)).
    { clear - QQ Qr. induction l as [|y l IH]; [exact Qr|]. cbn [flat_map]. rewrite <- app_assoc. apply QQ; [right; now left|].
      apply IH. intros z r [->|I] H; apply QQ; auto; [now left|right; now right]. }
    rewrite P by (auto; now left). rewrite IH; [reflexivity| | |exact Qr|exact N|cbn in L; lia].
    + intros y r I. apply P. now right.
    + intros y r I. apply QQ. now right.
Qed.
Lemma flat_length {A B} (f : A -> list B) l : (forall x, In x l -> f x <> []) -> (List.length l <= List.length (flat_map f l))%nat.
Proof.
  induction l as [|x l IH]; intros H; [cbn; lia|]. cbn [flat_map]. rewrite app_length. cbn [List.length].
  pose proof (H x (or_introl eq_refl)) as N. pose proof (IH (fun y I => H y (or_intror I))). destruct (f x); [congruence|]. cbn [List.length]. lia.
Qed.
Lemma many_flat {A} (p : parser A) (f : A -> list token) (Q : list token -> Prop) l rest :
  (forall x r, In x l -> Q r -> p (f x ++ r) = Some (x, r)) -> (forall x r, In x l -> Q r -> Q (f x ++ r)) -> (forall x, In x l -> f x <> []) ->
  Q rest -> p rest = None -> many p (flat_map f l ++ rest) = Some (l, rest).
Proof.
  intros P QQ NE Qr N. unfold many. apply (many_fuel_flat p f Q); auto. rewrite app_length. pose proof (flat_length f l NE). lia.
Qed.

Lemma tokens_join (sep : piece) l : tokens (join [sep] l) =
  match l with [] => [] | x :: r => tokens x ++ flat_map (fun y => piece_tokens sep ++ tokens y) r end.
Proof.
  induction l as [|x l IH]; [reflexivity|]. cbn [join]. destruct l as [|y r]; [cbn [flat_map]; now rewrite app_nil_r|].
  rewrite !tokens_app, IH. cbn [flat_map tokens app]. rewrite app_nil_r, <- app_assoc. reflexivity.
Qed.
Lemma tokens_join2 (s1 s2 : piece) l : tokens (join [s1; s2] l) =
  match l with [] => [] | x :: r => tokens x ++ flat_map (fun y => (piece_tokens s1 ++ piece_tokens s2) ++ tokens y) r end.
Proof.
  induction l as [|x l IH]; [reflexivity|]. cbn [join]. destruct l as [|y r]; [cbn [flat_map]; now rewrite app_nil_r|].
  rewrite !tokens_app, IH. cbn [flat_map tokens app]. rewrite app_nil_r, <- !app_assoc. reflexivity.
Qed.
Lemma flat_map_map {A B C} (f : B -> list C) (g : A -> B) l : flat_map f (map g l) = flat_map (fun x => f (g x)) l.
Proof. induction l as [|x l IH]; [reflexivity|]. cbn [map flat_map]. now rewrite IH. Qed.

(** Names between commas *)
Lemma comma_names p l rest : nonempty l = true -> String.eqb "," (head_kind rest) = false ->
  p = delimited (tok "WORD") -> p (tokens (join [PC ","] (map (fun r => [PI r]) l)) ++ rest) = Some (l, rest).
Proof.
  intros N H ->. destruct l as [|x l]; [discriminate|]. cbn [map]. rewrite tokens_join, flat_map_map. unfold delimited, pbind.
  cbn [tokens flat_map piece_tokens app tok String.eqb Ascii.eqb Bool.eqb].
  rewrite (many_flat _ (fun y => [(",", [","%char]); ("WORD", y)]) (fun _ => True)); [reflexivity| | | | |]; auto.
  - intros. discriminate.
  - unfold tok. destruct rest as [|[k v] r]; [reflexivity|]. cbn [head_kind] in H. now rewrite H.
Qed.
(** Names between blanks *)
Lemma blank_names l rest : String.eqb "WORD" (head_kind rest) = false ->
  many (tok "WORD") (tokens (join [sp] (map (fun r => [PI r]) l)) ++ rest) = Some (l, rest).
Proof.
  intros H. replace (tokens (join [sp] (map (fun r => [PI r]) l))) with (flat_map (fun w => [("WORD", w)]) l).
  - apply (many_flat _ _ (fun _ => True)); auto.
    + discriminate.
    + unfold tok. destruct rest as [|[k v] r]; [reflexivity|]. cbn [head_kind] in H. now rewrite H.
  - rewrite tokens_join. destruct l as [|x l]; [reflexivity|]. cbn [map flat_map]. rewrite flat_map_map. reflexivity.
Qed.
Lemma plain_unescape t : plain_text t = true -> unescape t = t. Proof. intros H. apply plain_body, H. Qed.
Lemma pairs_read l rest : forallb pair_ok l = true -> String.eqb "NUMBER" (head_kind rest) = false ->
  many p_pair (tokens (join [sp] (map pair_pieces l)) ++ rest) = Some (l, rest).
Proof.
  intros P H. replace (tokens (join [sp] (map pair_pieces l))) with (flat_map (fun p : chars * chars => [("NUMBER", fst p); ("STRING", snd p)]) l).
  - apply (many_flat _ _ (fun _ => True)); auto.
    + intros [a b] r _ _. reflexivity.
    + discriminate.
    + unfold p_pair, pbind, tok. destruct rest as [|[k v] r]; [reflexivity|]. cbn [head_kind] in H. now rewrite H.
  - rewrite forallb_forall in P. assert (E : forall p, In p l -> tokens (pair_pieces p) = [("NUMBER", fst p); ("STRING", snd p)]).
    { intros p I. specialize (P p I). unfold pair_ok in P. splitb. unfold pair_pieces. cbn [tokens flat_map piece_tokens app sp]. now rewrite plain_unescape. }
    rewrite tokens_join. destruct l as [|x l]; [reflexivity|]. cbn [map flat_map]. rewrite flat_map_map. rewrite E by now left. f_equal.
    assert (E' : forall p, In p l -> tokens (pair_pieces p) = [("NUMBER", fst p); ("STRING", snd p)]) by (intros p I; apply E; now right).
    clear - E'. induction l as [|y l IH]; [reflexivity|]. cbn [flat_map]. rewrite E' by now left. f_equal. apply IH. intros p I. apply E'. now right.
Qed.

(** Runs a parser on tokens of known kinds. *)
Ltac run := cbv beta iota zeta delta [pbind pret alt tok tokens flat_map piece_tokens app sp is_sign is_symbol String.eqb Ascii.eqb Bool.eqb orb andb fst snd map hd].
(** ** Signals *)
Lemma signal_read s rest : sg_ok s = true -> String.eqb "," (head_kind rest) = false ->
  p_signal (tokens (sg_pieces s) ++ rest) = Some (s, rest).
Proof.
  intros O H. unfold sg_ok in O. splitb. destruct s as [nm mux st ln od sg sc of mn mx un rc].
  cbn [ss_name ss_mux ss_start ss_length ss_order ss_sign ss_scale ss_offset ss_min ss_max ss_unit ss_receivers] in *.
  unfold sg_pieces. cbn [ss_name ss_mux ss_start ss_length ss_order ss_sign ss_scale ss_offset ss_min ss_max ss_unit ss_receivers].
  rewrite !tokens_app.
  assert (R : tokens (if no_receivers rc then [] else [sp]) = []) by (destruct (no_receivers rc); reflexivity). rewrite R. clear R.
  set (names := tokens (join [PC ","] (map (fun r => [PI r]) rc))).
  assert (NR : delimited (tok "WORD") (names ++ rest) = Some (rc, rest)) by (apply comma_names; auto).
  assert (SG : (if is_sign sg then "+/-" else String sg "") = "+/-") by (match goal with S : is_sign sg = true |- _ => now rewrite S end).
  cbn [tokens flat_map piece_tokens app sp]. rewrite SG, (plain_unescape un) by assumption.
  clear SG. unfold p_signal. rewrite <- !app_assoc. cbn [app].
  set (dw := delimited (tok "WORD")) in *. set (tail := names ++ rest) in *. clearbody dw tail.
  destruct mux as [m|]; run; rewrite NR; reflexivity.
Qed.

(** ** Choosing the alternative *)
Ltac skip := match goal with |- (match ?p ?ts with Some _ => _ | None => _ end) = _ =>
               let H := fresh in assert (H : p ts = None) by reflexivity; rewrite H; clear H end.
Ltac pick := unfold p_stmt; cbn [alt]; repeat skip; try (match goal with |- (match ?x with Some _ => _ | None => _ end) = _ => destruct x as [[? ?]|] end; [reflexivity|]; repeat skip; reflexivity).
Section Pick.
Variables (v : chars) (r : list token).
Lemma d_message : p_stmt (("BO_", v) :: r) = p_message (("BO_", v) :: r). Proof. pick. Qed.
Lemma d_comment : p_stmt (("CM_", v) :: r) = p_comment (("CM_", v) :: r). Proof. pick. Qed.
Lemma d_definition : p_stmt (("BA_DEF_", v) :: r) = p_definition (("BA_DEF_", v) :: r). Proof. pick. Qed.
Lemma d_table : p_stmt (("VAL_TABLE_", v) :: r) = p_table (("VAL_TABLE_", v) :: r). Proof. pick. Qed.
Lemma d_choice : p_stmt (("VAL_", v) :: r) = p_choice (("VAL_", v) :: r). Proof. pick. Qed.
Lemma d_attribute : p_stmt (("BA_", v) :: r) = p_attribute (("BA_", v) :: r). Proof. pick. Qed.
Lemma d_rel : p_stmt (("BA_REL_", v) :: r) = match p_sig_rel (("BA_REL_", v) :: r) with Some x => Some x | None => p_msg_rel (("BA_REL_", v) :: r) end.
Proof.
  unfold p_stmt. cbn [alt]. repeat skip. destruct (p_sig_rel (("BA_REL_", v) :: r)) as [x|]; [reflexivity|].
  destruct (p_msg_rel (("BA_REL_", v) :: r)) as [x|]; [reflexivity|]. repeat skip. reflexivity.
Qed.
Lemma d_rel_definition : p_stmt (("BA_DEF_REL_", v) :: r) = p_rel_definition (("BA_DEF_REL_", v) :: r). Proof. pick. Qed.
Lemma d_default : p_stmt (("BA_DEF_DEF_", v) :: r) = p_default (("BA_DEF_DEF_", v) :: r). Proof. pick. Qed.
Lemma d_rel_default : p_stmt (("BA_DEF_DEF_REL_", v) :: r) = p_rel_default (("BA_DEF_DEF_REL_", v) :: r). Proof. pick. Qed.
Lemma d_group : p_stmt (("SIG_GROUP_", v) :: r) = p_group (("SIG_GROUP_", v) :: r). Proof. pick. Qed.
Lemma d_sig_type : p_stmt (("SIG_VALTYPE_", v) :: r) = p_sig_type (("SIG_VALTYPE_", v) :: r). Proof. pick. Qed.
Lemma d_mux : p_stmt (("SG_MUL_VAL_", v) :: r) = p_mux (("SG_MUL_VAL_", v) :: r). Proof. pick. Qed.
Lemma d_senders : p_stmt (("BO_TX_BU_", v) :: r) = p_senders (("BO_TX_BU_", v) :: r). Proof. pick. Qed.
Lemma d_envvar : p_stmt (("EV_", v) :: r) = p_envvar (("EV_", v) :: r). Proof. pick. Qed.
Lemma d_nodes : p_stmt (("BU_", v) :: r) = p_nodes (("BU_", v) :: r). Proof. pick. Qed.
Lemma d_ns : p_stmt (("NS_", v) :: r) = p_ns (("NS_", v) :: r). Proof. pick. Qed.
Lemma d_bs : p_stmt (("BS_", v) :: r) = p_bs (("BS_", v) :: r). Proof. pick. Qed.
Lemma d_version : p_stmt (("VERSION", v) :: r) = p_version (("VERSION", v) :: r). Proof. pick. Qed.
End Pick.

(** ** Statements *)
Definition follow (ts : list token) : Prop :=
  String.eqb "WORD" (head_kind ts) = false /\ String.eqb "," (head_kind ts) = false /\ String.eqb "SG_" (head_kind ts) = false.
Lemma tok_none k ts : String.eqb k (head_kind ts) = false -> tok k ts = None.
Proof. unfold tok. destruct ts as [|[q v] r]; [reflexivity|]. cbn [head_kind]. now intros ->. Qed.
Lemma signals_read l rest : forallb sg_ok l = true -> follow rest ->
  many p_signal (tokens (flat_map (fun s => PB crlf :: sg_pieces s) l) ++ rest) = Some (l, rest).
Proof.
  intros O (F1 & F2 & F3). rewrite tokens_flat. rewrite forallb_forall in O.
  assert (E : forall s, tokens (PB crlf :: sg_pieces s) = tokens (sg_pieces s)) by reflexivity.
  apply (many_flat _ _ (fun ts => String.eqb "," (head_kind ts) = false)).
  - intros x r I Q. rewrite E. apply signal_read; auto.
  - intros x r I Q. reflexivity.
  - intros x I N. discriminate.
  - exact F2.
  - unfold p_signal, pbind. now rewrite tok_none.
Qed.
Lemma value_read v ts : value_ok v = true -> p_value (piece_tokens (value_piece v) ++ ts) = Some (v, ts).
Proof. destruct v; cbn [value_ok value_piece piece_tokens app]; intros H; [reflexivity|]. now rewrite plain_unescape. Qed.

Lemma semi_value n v rest : value_ok v = true ->
  (do v <- p_value; do _ <- tok ";"; pret (n v)) (piece_tokens (value_piece v) ++ (";", [";"%char]) :: rest) = Some (n v : stmt, rest).
Proof. intros H. unfold pbind at 1. rewrite value_read by exact H. reflexivity. Qed.
Definition p_where : parser target :=
  alt [do _ <- tok "BO_"; do i <- tok "NUMBER"; pret (("BO_", Some i, None) : target);
       do _ <- tok "SG_"; do i <- tok "NUMBER"; do n <- tok "WORD"; pret ("SG_", Some i, Some n);
       do _ <- tok "BU_"; do n <- tok "WORD"; pret ("BU_", None, Some n);
       do _ <- tok "EV_"; do n <- tok "WORD"; pret ("EV_", None, Some n)].
Lemma where_read t rest : target_ok t = true -> p_where (tokens (target_pieces t) ++ rest) = Some (t, rest).
Proof.
  destruct t as [[k i] n]. unfold target_ok, target_pieces. intros H. destruct i as [i|], n as [n|]; splitb; try discriminate.
  - apply String.eqb_eq in H. subst k. reflexivity.
  - apply String.eqb_eq in H. subst k. reflexivity.
  - apply orb_true_iff in H. destruct H as [H|H]; apply String.eqb_eq in H; subst k; reflexivity.
Qed.
Lemma wheres_read l v rest : forallb target_ok l = true ->
  many p_where (tokens (flat_map (fun t => sp :: target_pieces t) l) ++ piece_tokens (value_piece v) ++ rest) = Some (l, piece_tokens (value_piece v) ++ rest).
Proof.
  intros O. rewrite tokens_flat. rewrite forallb_forall in O. apply (many_flat _ _ (fun _ => True)); auto.
  - intros x r I _. exact (where_read x r (O x I)).
  - intros [[k i] n] I. discriminate.
  - destruct v; reflexivity.
Qed.
Definition def_tokens (l : list value_text) : list token := flat_map (fun v => piece_tokens (value_piece v)) l.
Lemma numbers_read l rest : forallb value_ok l = true -> forallb (fun v => negb (is_string v)) l = true -> String.eqb "NUMBER" (head_kind rest) = false ->
  p_numbers (flat_map (fun v => piece_tokens (value_piece v)) l ++ rest) = Some (l, rest).
Proof.
  intros V S H. rewrite forallb_forall in V, S. apply (many_flat _ _ (fun _ => True)); auto.
  - intros x r I _. specialize (S x I). destruct x; [reflexivity|discriminate].
  - intros x I. destruct x; discriminate.
  - unfold pbind. now rewrite tok_none.
Qed.
Lemma strings_read l rest : nonempty l = true -> forallb value_ok l = true -> forallb is_string l = true -> String.eqb "," (head_kind rest) = false ->
  p_strings (tokens (join [PC ","] (map (fun v => [value_piece v]) l)) ++ rest) = Some (l, rest).
Proof.
  intros N V S H. rewrite forallb_forall in V, S. destruct l as [|x l]; [discriminate|]. cbn [map]. rewrite tokens_join, flat_map_map.
  unfold p_strings, delimited, pbind.
  assert (E : forall y, In y (x :: l) -> exists t, y = VString t /\ piece_tokens (value_piece y) = [("STRING", t)]).
  { intros y I. specialize (V y I). specialize (S y I). destruct y as [t|t]; [discriminate|]. exists t. split; [reflexivity|].
    cbn [value_piece piece_tokens value_ok] in *. now rewrite plain_unescape. }
  destruct (E x (or_introl eq_refl)) as (t & -> & Et). cbn [tokens flat_map app]. rewrite app_nil_r, Et. cbn [app tok String.eqb Ascii.eqb Bool.eqb].
  unfold pret at 1.
  rewrite (many_flat _ (fun y => piece_tokens (PC ",") ++ tokens [value_piece y]) (fun _ => True)); auto.
  - intros y r I _. destruct (E y (or_intror I)) as (u & -> & Eu). unfold tokens. cbn [flat_map]. rewrite app_nil_r, Eu. reflexivity.
  - intros y I. discriminate.
  - now rewrite tok_none.
Qed.
Lemma values_tokens t l : values_ok t l = true -> tokens (def_values t l) =
  if chars_eqb t (txt "ENUM") then tokens (join [PC ","] (map (fun v => [value_piece v]) l)) else flat_map (fun v => piece_tokens (value_piece v)) l.
Proof.
  unfold values_ok, def_values. intros H. splitb. destruct (chars_eqb t (txt "ENUM")); [reflexivity|]. destruct (chars_eqb t (txt "STRING")).
  - destruct l; [reflexivity|discriminate].
  - rewrite tokens_flat. clear. induction l as [|v l IH]; [reflexivity|]. cbn [flat_map]. rewrite IH. f_equal.
    unfold tokens. cbn [flat_map sp piece_tokens app]. now rewrite app_nil_r.
Qed.
Definition semi : token := (";", [";"%char]).
Lemma def_values_read t l rest : values_ok t l = true -> alt [p_strings; p_numbers] (tokens (def_values t l) ++ semi :: rest) = Some (l, semi :: rest).
Proof.
  intros H. rewrite values_tokens by exact H. unfold values_ok in H. splitb. unfold alt. destruct (chars_eqb t (txt "ENUM")).
  - destruct l as [|x l]; [reflexivity|]. rewrite strings_read by auto. reflexivity.
  - assert (S : forallb (fun v => negb (is_string v)) l = true).
    { destruct (chars_eqb t (txt "STRING")); [|assumption]. destruct l; [reflexivity|discriminate]. }
    assert (N : p_strings (flat_map (fun v => piece_tokens (value_piece v)) l ++ semi :: rest) = None).
    { destruct l as [|x l]; [reflexivity|]. cbn [forallb] in S. splitb. destruct x; [reflexivity|discriminate]. }
    rewrite N. rewrite numbers_read by auto. reflexivity.
Qed.
Lemma rel_values_read t l rest : values_ok t l = true ->
  exists o, opt (alt [p_strings; many1 (do t <- tok "NUMBER"; pret (VNumber t))]) (tokens (def_values t l) ++ semi :: rest) = Some (o, semi :: rest) /\
            match o with Some l => l | None => [] end = l.
Proof.
  intros H. rewrite values_tokens by exact H. unfold values_ok in H. splitb. unfold opt, alt. destruct (chars_eqb t (txt "ENUM")).
  - destruct l as [|x l]; [exists None; split; reflexivity|]. rewrite strings_read by auto. exists (Some (x :: l)). split; reflexivity.
  - assert (S : forallb (fun v => negb (is_string v)) l = true).
    { destruct (chars_eqb t (txt "STRING")); [|assumption]. destruct l; [reflexivity|discriminate]. }
    destruct l as [|x l]; [exists None; split; reflexivity|]. cbn [forallb] in *. splitb. destruct x as [x|x]; [|discriminate].
    assert (N : p_strings (flat_map (fun v => piece_tokens (value_piece v)) (VNumber x :: l) ++ semi :: rest) = None) by reflexivity.
    rewrite N. unfold many1. unfold pbind at 1. cbn [flat_map value_piece piece_tokens app]. unfold pbind at 1.
    cbn [tok String.eqb Ascii.eqb Bool.eqb]. unfold pret at 1. unfold pbind at 1.
    pose proof (numbers_read l (semi :: rest) ltac:(assumption) ltac:(assumption) eq_refl) as R. unfold p_numbers in R. rewrite R.
    exists (Some (VNumber x :: l)). split; reflexivity.
Qed.
Lemma comment_unescape c : unescape (escape c) = c. Proof. apply unescape_escape. Qed.
Lemma ranges_read l rest : nonempty l = true -> String.eqb "," (head_kind rest) = false ->
  delimited (do a <- tok "NUMBER"; do b <- tok "NUMBER"; pret (a, b)) (tokens (join [PC ","; sp] (map (fun r : chars * chars => [PN (fst r); PN (snd r)]) l)) ++ rest) = Some (l, rest).
Proof.
  intros N H. destruct l as [|[a b] l]; [discriminate|]. cbn [map]. rewrite tokens_join2, flat_map_map. unfold delimited.
  unfold pbind at 1. cbn [fst snd tokens flat_map piece_tokens app]. unfold pbind at 1. cbn [tok String.eqb Ascii.eqb Bool.eqb]. unfold pbind at 1. cbn [tok String.eqb Ascii.eqb Bool.eqb].
  unfold pret at 1. unfold pbind at 1.
  rewrite (many_flat _ (fun x : chars * chars => (piece_tokens (PC ",") ++ piece_tokens sp) ++ tokens [PN (fst x); PN (snd x)]) (fun _ => True)); auto.
  - intros [c d] r I _. reflexivity.
  - intros x I. discriminate.
  - unfold pbind. now rewrite tok_none.
Qed.

Lemma stmt_read s rest : stmt_ok s = true -> s <> SNs -> follow rest -> p_stmt (tokens (pieces s) ++ rest) = Some (s, rest).
Proof.
  intros O NS F. destruct s; cbn [stmt_ok] in O; splitb; try congruence; cbn [pieces]; rewrite ?tokens_app.
  - cbn [tokens flat_map piece_tokens app sp]. rewrite d_version, plain_unescape by assumption. reflexivity.
  - reflexivity.
  - rewrite <- app_assoc. set (t := tokens (join [sp] (map (fun n => [PI n]) names)) ++ rest).
    cbn [tokens flat_map piece_tokens app sp]. rewrite d_nodes. unfold p_nodes.
    assert (M : many (tok "WORD") t = Some (names, rest)) by (apply blank_names, F). clearbody t. set (m := many (tok "WORD")) in *. clearbody m.
    run. rewrite M. reflexivity.
  - rewrite <- app_assoc. pose proof (signals_read signals rest ltac:(assumption) F) as M. set (t := tokens (flat_map _ signals) ++ rest) in *.
    cbn [tokens flat_map piece_tokens app sp]. rewrite d_message. unfold p_message. clearbody t. set (m := many p_signal) in *. clearbody m.
    run. rewrite M. reflexivity.
  - cbn [tokens flat_map piece_tokens app sp]. rewrite d_envvar, unescape_escape. reflexivity.
  - rewrite <- !app_assoc. set (t := tokens [PC ";"] ++ rest).
    assert (M : delimited (tok "WORD") (tokens (join [PC ","] (map (fun n => [PI n]) names)) ++ t) = Some (names, t)) by (apply comma_names; auto).
    set (t' := tokens (join [PC ","] (map (fun n => [PI n]) names)) ++ t) in *. cbn [tokens flat_map piece_tokens app sp]. rewrite d_senders. unfold p_senders.
    set (m := delimited (tok "WORD")) in *. subst t. clearbody m t'. run. rewrite M. reflexivity.
  - destruct where_ as [[[k i] n]|].
    + splitb. unfold target_ok in *. rewrite !tokens_app. rewrite <- !app_assoc.
      destruct i as [i|], n as [n|]; splitb; try discriminate;
        try (apply orb_true_iff in H; destruct H as [H|H]); apply String.eqb_eq in H; subst k;
        cbn [target_pieces tokens flat_map piece_tokens app sp]; rewrite d_comment, unescape_escape; reflexivity.
    + cbn [tokens flat_map piece_tokens app sp]. rewrite d_comment, plain_unescape by assumption. reflexivity.
  - rewrite <- !app_assoc. pose proof (def_values_read type values rest ltac:(assumption)) as M.
    change (tokens [PC ";"] ++ rest) with (semi :: rest). set (t := tokens (def_values type values) ++ semi :: rest) in *.
    set (m := alt [p_strings; p_numbers]) in *.
    assert (D : forall k, opt_ok (in_strings kinds) k = true ->
      p_definition (("BA_DEF_", txt "BA_DEF_") :: match k with Some k => [(k, txt k)] | None => [] end ++ ("STRING", name) :: ("WORD", type) :: t) = Some (SDef k name type values, rest)).
    { intros k K. unfold p_definition. fold m. clearbody m t. destruct k as [k|].
      - cbn [opt_ok in_strings kinds existsb] in K. unfold opt, p_keyword.
        repeat (apply orb_true_iff in K; destruct K as [K|K]; [apply String.eqb_eq in K; subst k; run; rewrite M; reflexivity|]). discriminate.
      - unfold opt, p_keyword. run. rewrite M. reflexivity. }
    cbn [tokens flat_map piece_tokens app sp]. rewrite d_definition, (plain_unescape name) by assumption. clearbody m t.
    rewrite <- (D kind) by assumption. destruct kind; reflexivity.
  - rewrite <- !app_assoc. destruct (rel_values_read type values rest ltac:(assumption)) as (o & M & E).
    change (tokens [PC ";"] ++ rest) with (semi :: rest). set (t := tokens (def_values type values) ++ semi :: rest) in *.
    set (m := opt (alt [p_strings; many1 (do t <- tok "NUMBER"; pret (VNumber t))])) in *. destruct kind as [k|]; [|discriminate].
    cbn [tokens flat_map piece_tokens app sp kind_piece]. rewrite d_rel_definition, (plain_unescape name) by assumption. unfold p_rel_definition. fold m. clearbody m t.
    unfold in_strings, rel_kinds in H. cbn [existsb] in H. unfold opt, p_keyword.
    repeat (apply orb_true_iff in H; destruct H as [H|H]; [apply String.eqb_eq in H; subst k; run; rewrite M; unfold semi; rewrite E; reflexivity|]). discriminate.
  - change (p_stmt (("BA_DEF_DEF_", txt "BA_DEF_DEF_") :: ("STRING", unescape name) :: (piece_tokens (value_piece v) ++ [semi]) ++ rest) = Some (SDefault name v, rest)).
    rewrite d_default, plain_unescape by assumption. rewrite <- app_assoc. exact (semi_value (SDefault name) v rest ltac:(assumption)).
  - change (p_stmt (("BA_DEF_DEF_REL_", txt "BA_DEF_DEF_REL_") :: ("STRING", unescape name) :: (piece_tokens (value_piece v) ++ [semi]) ++ rest) = Some (SRelDefault name v, rest)).
    rewrite d_rel_default, plain_unescape by assumption. rewrite <- app_assoc. exact (semi_value (SRelDefault name) v rest ltac:(assumption)).
  - rewrite <- !app_assoc. pose proof (wheres_read where_ v (semi :: rest) ltac:(assumption)) as M.
    pose proof (semi_value (SAttr name where_) v rest ltac:(assumption)) as V.
    replace (tokens [sp; value_piece v; PC ";"] ++ rest) with (piece_tokens (value_piece v) ++ semi :: rest)
      by (unfold tokens; cbn [flat_map sp piece_tokens app]; rewrite <- app_assoc; reflexivity).
    set (t := tokens (flat_map _ where_) ++ piece_tokens (value_piece v) ++ semi :: rest) in *.
    change (p_stmt (("BA_", txt "BA_") :: ("STRING", unescape name) :: t) = Some (SAttr name where_ v, rest)).
    rewrite d_attribute, plain_unescape by assumption.
    change ((do l <- many p_where; do v <- p_value; do _ <- tok ";"; pret (SAttr name l v)) t = Some (SAttr name where_ v, rest)).
    unfold pbind at 1. rewrite M. exact V.
  - change (p_stmt (("BA_REL_", txt "BA_REL_") :: ("STRING", unescape name) :: ("BU_SG_REL_", txt "BU_SG_REL_") :: ("WORD", node) :: ("SG_", txt "SG_") :: ("NUMBER", id) ::
      ("WORD", signal) :: (piece_tokens (value_piece v) ++ [semi]) ++ rest) = Some (SSigRel name node id signal v, rest)).
    rewrite d_rel, plain_unescape by assumption. rewrite <- app_assoc.
    pose proof (semi_value (SSigRel name node id signal) v rest ltac:(assumption)) as V.
    change ([semi] ++ rest) with (semi :: rest).
    match goal with |- match ?x with _ => _ end = _ => assert (P : x = Some (SSigRel name node id signal v, rest)) by exact V; rewrite P end. reflexivity.
  - change (p_stmt (("BA_REL_", txt "BA_REL_") :: ("STRING", unescape name) :: ("BU_BO_REL_", txt "BU_BO_REL_") :: ("WORD", node) :: ("NUMBER", id) ::
      (piece_tokens (value_piece v) ++ [semi]) ++ rest) = Some (SMsgRel name node id v, rest)).
    rewrite d_rel, plain_unescape by assumption. rewrite <- app_assoc.
    exact (semi_value (SMsgRel name node id) v rest ltac:(assumption)).
  - rewrite <- !app_assoc. set (t := tokens [sp; PC ";"] ++ rest).
    assert (M : many p_pair (tokens (join [sp] (map pair_pieces pairs)) ++ t) = Some (pairs, t)) by (apply pairs_read; auto).
    set (t' := tokens (join [sp] (map pair_pieces pairs)) ++ t) in *. set (m := many p_pair) in *. subst t. 
    destruct id as [i|]; cbn [tokens flat_map piece_tokens app sp]; rewrite d_choice; unfold p_choice, opt; fold m; clearbody m t'; run; rewrite M; reflexivity.
  - rewrite <- !app_assoc. set (t := tokens [sp; PC ";"] ++ rest).
    assert (M : many p_pair (tokens (join [sp] (map pair_pieces pairs)) ++ t) = Some (pairs, t)) by (apply pairs_read; auto).
    set (t' := tokens (join [sp] (map pair_pieces pairs)) ++ t) in *. set (m := many p_pair) in *. subst t. 
    cbn [tokens flat_map piece_tokens app sp]; rewrite d_table; unfold p_table; fold m; clearbody m t'; run; rewrite M; reflexivity.
  - cbn [tokens flat_map piece_tokens app sp]. rewrite d_sig_type. reflexivity.
  - rewrite <- !app_assoc. set (t := tokens [PC ";"] ++ rest).
    assert (M : many (tok "WORD") (tokens (join [sp] (map (fun n => [PI n]) names)) ++ t) = Some (names, t)) by (apply blank_names; reflexivity).
    set (t' := tokens (join [sp] (map (fun n => [PI n]) names)) ++ t) in *. set (m := many (tok "WORD")) in *. subst t. 
    cbn [tokens flat_map piece_tokens app sp]; rewrite d_group; unfold p_group; fold m; clearbody m t'; run; rewrite M; reflexivity.
  - rewrite <- !app_assoc. set (t := tokens [PC ";"] ++ rest).
    pose proof (ranges_read ranges t ltac:(assumption) eq_refl) as M.
    match type of M with ?d _ = _ => set (m := d) in * end.
    set (t' := tokens (join [PC ","; sp] (map _ ranges)) ++ t) in *. subst t.
    cbn [tokens flat_map piece_tokens app sp]; rewrite d_mux; unfold p_mux; fold m; clearbody m t'; run; rewrite M; reflexivity.
Qed.

(** ** Files *)
(** The statements of a file after its first lines, in their order *)
Definition file_body (f : dbc_file) : list stmt :=
  df_tables f ++ df_messages f ++ df_senders f ++ df_envvars f ++ df_comments f ++ df_definitions f ++ df_rel_definitions f ++ df_defaults f ++
  df_rel_defaults f ++ df_attributes f ++ df_rel_attributes f ++ df_choices f ++ df_types f ++ df_groups f ++ df_muxes f.
Definition file_stmts (f : dbc_file) : list stmt := SVersion (df_version f) :: SNs :: SBs :: SNodes (df_nodes f) :: file_body f.
(** The statements that may be written after the first lines *)
Definition body_stmt (s : stmt) : bool := match s with SVersion _ | SNs | SBs | SNodes _ => false | _ => stmt_ok s end.
Definition file_ok (f : dbc_file) : bool := plain_text (df_version f) && forallb name_ok (df_nodes f) && forallb body_stmt (file_body f).

Lemma body_ok_stmt s : body_stmt s = true -> stmt_ok s = true /\ s <> SNs.
Proof. destruct s; cbn [body_stmt]; intros H; try discriminate; (split; [exact H|discriminate]). Qed.
Lemma fine_line s b r : stmt_ok s = true -> forallb skip_char b = true -> b <> [] -> fine r -> fine (pieces s ++ PB b :: r).
Proof.
  intros O B N F. apply fine_app; [now apply fine_stmt|now apply fine_blank|]. intros n _. destruct b as [|c b]; [congruence|].
  cbn [forallb] in B. apply andb_true_iff in B. destruct B as [B _]. unfold first_char. cbn [text flat_map piece_text app].
  unfold skip_char in B. repeat (apply orb_true_iff in B; destruct B as [B|B]); apply Ascii.eqb_eq in B; subst c; reflexivity.
Qed.
Lemma fine_lines sep b l r : forallb body_stmt l = true -> forallb skip_char sep = true -> sep <> [] -> forallb skip_char b = true -> b <> [] -> fine r ->
  fine (lines sep l ++ PB b :: r).
Proof.
  intros O S N B NB F. unfold lines. induction l as [|s l IH].
  - cbn [map join app]. now apply fine_blank.
  - cbn [forallb] in O. apply andb_true_iff in O. destruct O as [O1 O2]. apply body_ok_stmt in O1. cbn [map join].
    destruct (map pieces l) as [|y q] eqn:M; [now apply fine_line|]. rewrite <- app_assoc. cbn [app]. apply fine_line; [apply O1|exact S|exact N|].
    now apply IH.
Qed.
Lemma fine_each l r : forallb body_stmt l = true -> fine r -> fine (each_line l ++ r).
Proof.
  intros O F. unfold each_line. induction l as [|s l IH]; [exact F|]. cbn [forallb] in O. apply andb_true_iff in O. destruct O as [O1 O2].
  apply body_ok_stmt in O1. cbn [flat_map]. rewrite <- !app_assoc. apply fine_line; [apply O1|reflexivity|discriminate|now apply IH].
Qed.
Lemma fine_file f : file_ok f = true -> fine (file_pieces f).
Proof.
  unfold file_ok. intros H. splitb. unfold file_body in *.
  repeat match goal with H : forallb body_stmt (_ ++ _) = true |- _ => rewrite forallb_app in H; apply andb_true_iff in H; destruct H end.
  unfold file_pieces.
  repeat lazymatch goal with
    | |- fine (each_line _ ++ _) => apply fine_each; [assumption|]
    | |- fine (lines _ _ ++ _) => apply fine_lines; [assumption|reflexivity|discriminate|reflexivity|discriminate|]
    | |- fine (pieces (SVersion _) ++ _) => apply fine_line; [assumption|reflexivity|discriminate|]
    | |- fine (pieces (SNodes _) ++ _) => apply fine_line; [assumption|reflexivity|discriminate|]
    | |- fine (pieces _ ++ _) => apply fine_line; [reflexivity|reflexivity|discriminate|]
    | |- fine (PB _ :: _) => apply fine_blank; [reflexivity|]
    | |- fine [] => apply fine_nil
    end.
Qed.
Definition stmt_tokens (s : stmt) : list token := tokens (pieces s).
Lemma tokens_lines sep l r : tokens (lines sep l ++ r) = flat_map stmt_tokens l ++ tokens r.
Proof.
  rewrite tokens_app. f_equal. unfold lines. rewrite tokens_join. destruct l as [|s l]; [reflexivity|]. cbn [map flat_map]. rewrite flat_map_map. reflexivity.
Qed.
Lemma tokens_each l r : tokens (each_line l ++ r) = flat_map stmt_tokens l ++ tokens r.
Proof.
  rewrite tokens_app. f_equal. unfold each_line. rewrite tokens_flat. induction l as [|s l IH]; [reflexivity|]. cbn [flat_map]. rewrite IH.
  rewrite tokens_app. cbn [tokens flat_map piece_tokens]. now rewrite app_nil_r.
Qed.
Lemma tokens_file f : tokens (file_pieces f) = flat_map stmt_tokens (file_stmts f).
Proof.
  unfold file_pieces, file_stmts, file_body.
  repeat (rewrite tokens_lines || rewrite tokens_each || (rewrite tokens_cons; cbn [piece_tokens app]) || rewrite (tokens_app (pieces _))).
  cbn [flat_map]. rewrite !flat_map_app. cbn [tokens flat_map app]. rewrite app_nil_r. reflexivity.
Qed.
Lemma body_follow s r : body_stmt s = true -> follow (stmt_tokens s ++ r).
Proof. destruct s as [| | | | | | |[t|]| | | | | | | |[i|]| | | |]; cbn [body_stmt]; intros H; try discriminate; (split; [|split]); reflexivity. Qed.
Lemma body_read l : forallb body_stmt l = true -> many p_stmt (flat_map stmt_tokens l) = Some (l, []).
Proof.
  intros O. rewrite forallb_forall in O. pose proof (many_flat p_stmt stmt_tokens follow l []) as M. rewrite app_nil_r in M. apply M.
  - intros s r I F. destruct (body_ok_stmt s (O s I)) as [P N]. now apply stmt_read.
  - intros s r I _. apply body_follow, O, I.
  - intros s I E. specialize (O s I). destruct s as [| | | | | | |[t|]| | | | | | | |[i|]| | | |]; discriminate.
  - split; [|split]; reflexivity.
  - reflexivity.
Qed.
Lemma nodes_follow l : forallb body_stmt l = true -> follow (flat_map stmt_tokens l).
Proof.
  destruct l as [|s l]; [intros _; split; [|split]; reflexivity|]. cbn [forallb flat_map]. intros H. apply andb_true_iff in H. apply body_follow, H.
Qed.
Lemma many_cons {A} (p : parser A) ts a r l r' : p ts = Some (a, r) -> (List.length r < List.length ts)%nat -> many p r = Some (l, r') ->
  (forall n, (List.length r <= n)%nat -> many_fuel n p r = many p r) -> many p ts = Some (a :: l, r').
Proof.
  intros P L M E. unfold many. destruct ts as [|t ts]; [cbn in L; lia|]. cbn [List.length many_fuel]. rewrite P, E by (cbn [List.length] in L; lia). now rewrite M.
Qed.
(** What is written is read back. *)
Theorem parse_file f : file_ok f = true -> parse (file_text f) = Some (file_stmts f).
Proof.
  intros O. unfold parse, file_text. rewrite tokenize_text by (apply fine_file; [exact O|reflexivity]). rewrite tokens_file.
  unfold file_ok in O. splitb. set (l := file_body f) in *. set (body := flat_map stmt_tokens l).
  assert (FB : follow body) by now apply nodes_follow.
  assert (R1 : forall r, follow r -> p_stmt (stmt_tokens (SVersion (df_version f)) ++ r) = Some (SVersion (df_version f), r)) by (intros r F; apply stmt_read; [assumption|discriminate|exact F]).
  assert (R3 : forall r, follow r -> p_stmt (stmt_tokens SBs ++ r) = Some (SBs, r)) by (intros r F; apply stmt_read; [reflexivity|discriminate|exact F]).
  assert (R4 : p_stmt (stmt_tokens (SNodes (df_nodes f)) ++ body) = Some (SNodes (df_nodes f), body)) by (apply stmt_read; [assumption|discriminate|exact FB]).
  assert (R2 : forall r, p_stmt (stmt_tokens SNs ++ stmt_tokens SBs ++ r) = Some (SNs, stmt_tokens SBs ++ r)) by reflexivity.
  assert (MB : forall n, (List.length l <= n)%nat -> many_fuel n p_stmt body = Some (l, [])).
  { intros n L. pose proof (many_fuel_flat p_stmt stmt_tokens follow l) as M. specialize (M ltac:(intros s r I F; match goal with Q : forallb body_stmt l = true |- _ => rewrite forallb_forall in Q; destruct (body_ok_stmt s (Q s I)) end; now apply stmt_read)).
    specialize (M ltac:(intros s r I _; match goal with Q : forallb body_stmt l = true |- _ => rewrite forallb_forall in Q; apply body_follow, Q, I end) [] n).
    rewrite app_nil_r in M. apply M; [split; [|split]; reflexivity|reflexivity|exact L]. }
  unfold file_stmts. cbn [flat_map]. fold l. fold body. unfold many1. unfold pbind at 1.
  rewrite R1 by (split; [|split]; reflexivity). unfold pbind at 1.
  assert (LB : (List.length l <= List.length body)%nat).
  { apply flat_length. intros s I E. match goal with Q : forallb body_stmt l = true |- _ => rewrite forallb_forall in Q; specialize (Q s I) end.
    destruct s as [| | | | | | |[t|]| | | | | | | |[i|]| | | |]; discriminate. }
  assert (M : many p_stmt (stmt_tokens SNs ++ stmt_tokens SBs ++ stmt_tokens (SNodes (df_nodes f)) ++ body) = Some (SNs :: SBs :: SNodes (df_nodes f) :: l, [])).
  { unfold many. rewrite !app_length. set (k := List.length (stmt_tokens (SNodes (df_nodes f)))).
    replace (List.length (stmt_tokens SNs) + (List.length (stmt_tokens SBs) + (k + List.length body)))%nat
      with (S (S (S (List.length (stmt_tokens SNs) + List.length (stmt_tokens SBs) - 3 + k + List.length body)))) by (cbn; lia).
    cbn [many_fuel]. rewrite R2, R3 by (split; [|split]; reflexivity). rewrite R4, MB by lia. reflexivity. }
  rewrite M. reflexivity.
Qed.
