(** DbcParse: the statements that are written are the statements that are read. *)
From Coq Require Import Ascii.
From Verif Require Import Base CSource CNames Regex RegexLemmas DecText DbcToken DbcLex DbcStmt DbcPieces.
Local Open Scope string_scope.
Local Open Scope Z_scope.
Local Open Scope list_scope.

(** ** Statements whose texts are read back *)
Definition value_ok (v : value_text) : bool := match v with VNumber t => number_token t | VString t => plain_text t end.
Definition comment_ok (c : chars) : bool := negb (ends_in_backslash c).
Definition is_string (v : value_text) : bool := match v with VString _ => true | _ => false end.
Definition nonempty {A} (l : list A) : bool := match l with [] => false | _ => true end.
Definition opt_ok {A} (f : A -> bool) (o : option A) : bool := match o with Some x => f x | None => true end.
Definition sg_ok (s : sg_stmt) : bool :=
  name_ok (ss_name s) && opt_ok name_ok (ss_mux s) && number_token (ss_start s) && number_token (ss_length s) && number_token (ss_order s) &&
  is_sign (ss_sign s) && number_token (ss_scale s) && number_token (ss_offset s) && number_token (ss_min s) && number_token (ss_max s) &&
  plain_text (ss_unit s) && nonempty (ss_receivers s) && forallb name_ok (ss_receivers s).
Definition target_ok (t : target) : bool :=
  match t with
  | (k, Some i, None) => String.eqb k "BO_" && number_token i
  | (k, Some i, Some n) => String.eqb k "SG_" && number_token i && name_ok n
  | (k, None, Some n) => (String.eqb k "BU_" || String.eqb k "EV_") && name_ok n
  | (k, None, None) => false
  end.
Definition values_ok (type : chars) (l : list value_text) : bool :=
  forallb value_ok l &&
  if chars_eqb type (txt "ENUM") then forallb is_string l
  else if chars_eqb type (txt "STRING") then negb (nonempty l)
  else forallb (fun v => negb (is_string v)) l.
Definition pair_ok (p : chars * chars) : bool := number_token (fst p) && plain_text (snd p).
Definition range_ok (r : chars * chars) : bool :=
  number_token (fst r) && number_token (snd r) && match snd r with c :: _ => Ascii.eqb c "-" | [] => false end.
Definition kinds : list string := ["SG_"; "BO_"; "EV_"; "BU_"].
Definition rel_kinds : list string := ["BU_SG_REL_"; "BU_BO_REL_"].
Definition in_strings (l : list string) (k : string) : bool := existsb (String.eqb k) l.
Definition stmt_ok (s : stmt) : bool :=
  match s with
  | SVersion v => plain_text v
  | SNs | SBs => true
  | SNodes l => forallb name_ok l
  | SMessage i n l sd sg => number_token i && name_ok n && number_token l && name_ok sd && forallb sg_ok sg
  | SEnv n t mn mx u v i a nd => name_ok n && number_token t && number_token mn && number_token mx && comment_ok u && number_token v &&
                                 number_token i && name_ok a && name_ok nd
  | SSenders i l => number_token i && nonempty l && forallb name_ok l
  | SComment None c => plain_text c
  | SComment (Some t) c => target_ok t && comment_ok c
  | SDef k n t l => opt_ok (in_strings kinds) k && plain_text n && name_ok t && values_ok t l
  | SRelDef k n t l => match k with Some k => in_strings rel_kinds k | None => false end && plain_text n && name_ok t && values_ok t l
  | SDefault n v | SRelDefault n v => plain_text n && value_ok v
  | SAttr n l v => plain_text n && forallb target_ok l && value_ok v
  | SSigRel n nd i sg v => plain_text n && name_ok nd && number_token i && name_ok sg && value_ok v
  | SMsgRel n nd i v => plain_text n && name_ok nd && number_token i && value_ok v
  | SVal i n l => opt_ok number_token i && name_ok n && forallb pair_ok l
  | SValTable n l => name_ok n && forallb pair_ok l
  | SSigType i n t => number_token i && name_ok n && number_token t
  | SGroup i n r l => number_token i && name_ok n && number_token r && forallb name_ok l
  | SMux i n m l => number_token i && name_ok n && name_ok m && nonempty l && forallb range_ok l
  end.
Ltac splitb := repeat match goal with H : andb _ _ = true |- _ => apply andb_true_iff in H; destruct H end.

(** ** The pieces of a statement are read as its tokens *)
Lemma pok_cons p r n : piece_ok p = true -> next_ok p (first_char r n) = true -> pok r n = true -> pok (p :: r) n = true.
Proof. intros H1 H2 H3. cbn [pok]. now rewrite H1, H2, H3. Qed.
Lemma next_sym s n : is_sign s = false -> next_ok (PC s) n = true.
Proof. intros H. unfold next_ok. destruct n; [now rewrite H|reflexivity]. Qed.
Lemma ends_comma s c : is_symbol c = true -> ends (first_char (PC c :: s) None) = true.
Proof.
  intros H. unfold is_symbol in H. apply existsb_exists in H. destruct H as ([d k] & I & E). cbn [fst] in E. apply Ascii.eqb_eq in E. subst d.
  cbn [symbols In] in I. repeat (destruct I as [I|I]; [apply pair_equal_spec in I; destruct I as [<- _]; reflexivity|]). contradiction.
Qed.
Lemma plain_ok t : plain_text t = true -> body_ok t = true. Proof. intros H. apply plain_body, H. Qed.
Lemma escape_ok c : comment_ok c = true -> body_ok (escape c) = true.
Proof. unfold comment_ok. intros H. apply negb_true_iff in H. now apply escape_body. Qed.
Lemma value_piece_ok v : value_ok v = true -> piece_ok (value_piece v) = true.
Proof. destruct v; cbn [value_ok value_piece piece_ok]; [auto|apply plain_ok]. Qed.
Lemma kind_ok k : in_strings kinds k = true -> is_keyword (txt k) = true.
Proof. unfold in_strings, kinds. cbn [existsb]. intros H. repeat (apply orb_true_iff in H; destruct H as [H|H]; [apply String.eqb_eq in H; subst k; reflexivity|]). discriminate. Qed.
Lemma rel_kind_ok k : in_strings rel_kinds k = true -> is_keyword (txt k) = true.
Proof. unfold in_strings, rel_kinds. cbn [existsb]. intros H. repeat (apply orb_true_iff in H; destruct H as [H|H]; [apply String.eqb_eq in H; subst k; reflexivity|]). discriminate. Qed.
Lemma sign_next t c r n : is_sign c = true -> next_ok (PN t) (first_char (PC c :: r) n) = true.
Proof. unfold is_sign. intros H. apply orb_true_iff in H. destruct H as [H|H]; apply Ascii.eqb_eq in H; subst c; reflexivity. Qed.
Lemma minus_next t b r n : match b with c :: _ => Ascii.eqb c "-" | [] => false end = true -> next_ok (PN t) (first_char (PN b :: r) n) = true.
Proof. destruct b as [|c b]; [discriminate|]. intros H. apply Ascii.eqb_eq in H. subst c. reflexivity. Qed.
Lemma value_next v n : ends n = true -> next_ok (value_piece v) n = true. Proof. apply ends_next. Qed.

(** [l] is well-formed before every ending character. *)
Definition fine (l : list piece) : Prop := forall n, ends n = true -> pok l n = true.
(** ... and starts with an ending character. *)
Definition starts (l : list piece) : Prop := forall n, ends n = true -> ends (first_char l n) = true.
Lemma fine_nil : fine []. Proof. intros n _. reflexivity. Qed.
Lemma starts_nil : starts []. Proof. intros n H. exact H. Qed.
Lemma fine_app a b : fine a -> fine b -> starts b -> fine (a ++ b).
Proof. intros A B S n E. rewrite pok_app, (A _ (S n E)), (B n E). reflexivity. Qed.
Lemma starts_app a b : starts a -> starts b -> starts (a ++ b).
Proof. intros A B n E. rewrite first_char_app. auto. Qed.
Lemma fine_blank b l : forallb skip_char b = true -> fine l -> fine (PB b :: l).
Proof. intros B F n E. apply pok_cons; [exact B|reflexivity|now apply F]. Qed.
Lemma fine_str b l : body_ok b = true -> fine l -> fine (PS b :: l).
Proof. intros B F n E. apply pok_cons; [exact B|reflexivity|now apply F]. Qed.
Lemma fine_sym c l : is_symbol c = true -> is_sign c = false -> fine l -> fine (PC c :: l).
Proof. intros B S F n E. apply pok_cons; [cbn [piece_ok]; now rewrite B|now apply next_sym|now apply F]. Qed.
Lemma fine_tok p l : piece_ok p = true -> fine l -> starts l -> fine (p :: l).
Proof. intros B F S n E. apply pok_cons; [exact B|apply ends_next, S, E|now apply F]. Qed.
Lemma starts_sp l : starts (sp :: l). Proof. intros n _. reflexivity. Qed.
Lemma starts_str b l : starts (PS b :: l). Proof. intros n _. reflexivity. Qed.
Lemma starts_sym c l : is_symbol c = true -> starts (PC c :: l).
Proof. intros H n _. pose proof (ends_comma l c H) as P. exact P. Qed.
Lemma starts_sign c l : is_sign c = true -> starts (PC c :: l).
Proof. unfold is_sign. intros H n _. apply orb_true_iff in H. destruct H as [H|H]; apply Ascii.eqb_eq in H; subst c; reflexivity. Qed.
Lemma fine_flat {A} (f : A -> list piece) l : (forall x, In x l -> fine (f x) /\ starts (f x)) -> fine (flat_map f l) /\ starts (flat_map f l).
Proof.
  induction l as [|x l IH]; intros H; [split; [apply fine_nil|apply starts_nil]|]. cbn [flat_map].
  destruct (H x (or_introl eq_refl)) as [F S]. destruct IH as [F' S']; [intros y I; apply H; now right|].
  split; [now apply fine_app|now apply starts_app].
Qed.
Lemma fine_join {A} (f : A -> list piece) sep l : (forall x, In x l -> fine (f x)) -> (forall n, pok sep n = true) ->
  (forall n, ends (first_char sep n) = true) -> fine (join sep (map f l)).
Proof.
  intros H P E. induction l as [|x l IH]; [apply fine_nil|]. cbn [map join]. destruct (map f l) as [|y r] eqn:M; [apply H; now left|].
  assert (IH' : fine (join sep (y :: r))) by (apply IH; intros z I; apply H; now right).
  intros n En. rewrite pok_app, first_char_app, pok_app, P, (IH' n En). rewrite (H x (or_introl eq_refl) _ (E _)). reflexivity.
Qed.
Lemma fine_name n : name_ok n = true -> fine [PI n]. Proof. intros H. apply fine_tok; [exact H|apply fine_nil|apply starts_nil]. Qed.
Lemma fine_target t : target_ok t = true -> forall l, fine l -> starts l -> fine (target_pieces t ++ l).
Proof.
  destruct t as [[k i] n]. unfold target_ok, target_pieces. intros H l F S. destruct i as [i|], n as [n|]; splitb; try discriminate.
  - apply String.eqb_eq in H. subst k. cbn [app]. apply fine_tok; [reflexivity| |apply starts_sp]. apply fine_blank; [reflexivity|].
    apply fine_tok; [assumption| |apply starts_sp]. apply fine_blank; [reflexivity|]. now apply fine_tok.
  - apply String.eqb_eq in H. subst k. cbn [app]. apply fine_tok; [reflexivity| |apply starts_sp]. apply fine_blank; [reflexivity|]. now apply fine_tok.
  - cbn [app]. apply fine_tok; [|apply fine_blank; [reflexivity|]; now apply fine_tok|apply starts_sp].
    apply orb_true_iff in H. destruct H as [H|H]; apply String.eqb_eq in H; subst k; reflexivity.
Qed.
Ltac fine1 :=
  lazymatch goal with
  | |- fine [] => apply fine_nil
  | |- fine (sp :: _) => apply fine_blank; [reflexivity|]
  | |- fine (PB _ :: _) => apply fine_blank; [reflexivity|]
  | |- fine (PS (escape _) :: _) => apply fine_str; [now apply escape_ok|]
  | |- fine (PS _ :: _) => apply fine_str; [now apply plain_ok|]
  | |- fine (PC _ :: _) => apply fine_sym; [reflexivity|reflexivity|]
  | |- fine (PK _ :: _) => apply fine_tok; [reflexivity| |]
  | |- fine (value_piece _ :: _) => apply fine_tok; [now apply value_piece_ok| |]
  | |- fine (_ :: _) => apply fine_tok; [assumption| |]
  | |- starts [] => apply starts_nil
  | |- starts (sp :: _) => apply starts_sp
  | |- starts (PB _ :: _) => intros ? _; reflexivity
  | |- starts (PS _ :: _) => apply starts_str
  | |- starts (PC _ :: _) => apply starts_sym; reflexivity
  end.
Ltac fines := repeat (cbn [app]; fine1).
Lemma fine_names sep l : forallb name_ok l = true -> (forall n, pok sep n = true) -> (forall n, ends (first_char sep n) = true) ->
  fine (join sep (map (fun n => [PI n]) l)).
Proof. intros H P E. apply fine_join; [|exact P|exact E]. intros x I. rewrite forallb_forall in H. now apply fine_name, H. Qed.
Lemma sp_sep : (forall n, pok [sp] n = true) /\ (forall n, ends (first_char [sp] n) = true). Proof. split; intros [n|]; reflexivity. Qed.
Lemma comma_sep : (forall n, pok [PC ","] n = true) /\ (forall n, ends (first_char [PC ","] n) = true). Proof. split; intros [n|]; reflexivity. Qed.
Lemma comma_sp_sep : (forall n, pok [PC ","; sp] n = true) /\ (forall n, ends (first_char [PC ","; sp] n) = true). Proof. split; intros [n|]; reflexivity. Qed.
Lemma fine_pairs l : forallb pair_ok l = true -> fine (join [sp] (map pair_pieces l)).
Proof.
  intros H. apply fine_join; [|apply sp_sep|apply sp_sep]. intros x I. rewrite forallb_forall in H. specialize (H x I). unfold pair_ok in H. splitb.
  unfold pair_pieces. fines.
Qed.
Lemma fine_values t l : values_ok t l = true -> fine (def_values t l) /\ starts (def_values t l).
Proof.
  unfold values_ok, def_values. intros H. splitb. rewrite forallb_forall in H. destruct (chars_eqb t (txt "ENUM")).
  - split; [|fines]. apply fine_blank; [reflexivity|]. apply fine_join; [|apply comma_sep|apply comma_sep].
    intros v I. specialize (H v I). fines.
  - destruct (chars_eqb t (txt "STRING")); [split; fines|]. apply fine_flat. intros v I. specialize (H v I). split; fines.
Qed.
Lemma fine_sg s : sg_ok s = true -> fine (sg_pieces s).
Proof.
  unfold sg_ok, sg_pieces. intros H. splitb. destruct s as [nm mux st ln od sg sc of mn mx un rc].
  cbn [ss_name ss_mux ss_start ss_length ss_order ss_sign ss_scale ss_offset ss_min ss_max ss_unit ss_receivers] in *.
  assert (T : fine ((if no_receivers rc then [] else [sp]) ++ join [PC ","] (map (fun r => [PI r]) rc))).
  { assert (F : fine (join [PC ","] (map (fun r => [PI r]) rc))) by (apply fine_names; [assumption|apply comma_sep|apply comma_sep]).
    destruct (no_receivers rc); [exact F|]. cbn [app]. now apply fine_blank. }
  destruct mux as [m|]; cbn [app opt_ok] in *.
  all: fines; [|now apply starts_sign].
  all: apply fine_tok; [cbn [piece_ok]; match goal with S : is_sign _ = true |- _ => rewrite S end; apply orb_true_r| |apply starts_sp].
  all: fines; exact T.
Qed.
Lemma fine_range r : range_ok r = true -> fine [PN (fst r); PN (snd r)].
Proof.
  unfold range_ok. intros H. splitb. intros n E. apply pok_cons; [assumption|now apply minus_next|]. revert n E. change (fine [PN (snd r)]). fines.
Qed.
Lemma fine_stmt s : stmt_ok s = true -> fine (pieces s).
Proof.
  destruct s; cbn [stmt_ok pieces]; intros H; splitb; try (fines; fail).
  - intros n E. destruct n as [c|]; [|reflexivity].
    rewrite (pok_ends _ (Some c) None E eq_refl). reflexivity.
  - fines. apply fine_names; [assumption|apply sp_sep|apply sp_sep].
  - pose proof (fun x => fine_sg x) as FS.
    assert (G : fine (flat_map (fun s => PB crlf :: sg_pieces s) signals) /\ starts (flat_map (fun s => PB crlf :: sg_pieces s) signals)).
    { apply fine_flat. intros x I. match goal with S : forallb sg_ok signals = true |- _ => rewrite forallb_forall in S; specialize (S x I) end.
      split; [apply fine_blank; [reflexivity|]; now apply FS|fines]. }
    destruct G as [G1 G2]. fines; assumption.
  - fines. apply fine_app; [apply fine_names; [assumption|apply comma_sep|apply comma_sep]| |]; fines.
  - destruct where_ as [t|].
    + splitb. cbn [app]. fines. apply fine_target; [assumption|fines|fines].
    + fines.
  - destruct (fine_values type values ltac:(assumption)) as [V1 V2].
    assert (T : fine (def_values type values ++ [PC ";"])) by (apply fine_app; [exact V1|fines|fines]).
    assert (T2 : starts (def_values type values ++ [PC ";"])) by (apply starts_app; [exact V2|fines]).
    destruct kind as [k|]; cbn [opt_ok] in *; cbn [app]; fines; try assumption.
    apply fine_tok; [now apply kind_ok| |fines]. fines; assumption.
  - destruct kind as [k|]; [|discriminate]. destruct (fine_values type values ltac:(assumption)) as [V1 V2]. cbn [kind_piece].
    assert (T : fine (def_values type values ++ [PC ";"])) by (apply fine_app; [exact V1|fines|fines]).
    assert (T2 : starts (def_values type values ++ [PC ";"])) by (apply starts_app; [exact V2|fines]).
    cbn [app]. apply fine_tok; [reflexivity| |fines]. apply fine_blank; [reflexivity|]. apply fine_tok; [now apply rel_kind_ok| |fines]. fines; assumption.
  - cbn [app]. fines.
    assert (G : fine (flat_map (fun t => sp :: target_pieces t) where_) /\ starts (flat_map (fun t => sp :: target_pieces t) where_)).
    { apply fine_flat. intros x I. match goal with S : forallb target_ok _ = true |- _ => rewrite forallb_forall in S; specialize (S x I) end.
      split; [|fines]. apply fine_blank; [reflexivity|]. rewrite <- (app_nil_r (target_pieces x)). apply fine_target; [assumption|fines|fines]. }
    destruct G as [G1 G2]. apply fine_app; [exact G1|fines|fines].
  - destruct id as [i|]; cbn [app opt_ok] in *; fines; (apply fine_app; [now apply fine_pairs|fines|fines]).
  - fines. apply fine_app; [now apply fine_pairs|fines|fines].
  - fines. apply fine_app; [apply fine_names; [assumption|apply sp_sep|apply sp_sep]|fines|fines].
  - fines. apply fine_app; [|fines|fines]. apply fine_join; [|apply comma_sp_sep|apply comma_sp_sep].
    intros x I. match goal with S : forallb range_ok _ = true |- _ => rewrite forallb_forall in S; specialize (S x I) end. now apply fine_range.
Qed.
