(** SymRows: the rows that are read from the text that is written for rows. *)
From Coq Require Import Ascii.
From Verif Require Import Base CSource CNames Regex RegexLemmas DecText DbcToken DbcLex DbcStmt DbcPieces DbcParse DbcGrammar SymToken SymStmt.
Local Open Scope string_scope.
Local Open Scope Z_scope.
Local Open Scope list_scope.
Notation txt := DbcToken.txt.

(** ** The rows that can be written *)
Definition comment_ok (c : option chars) : bool :=
  match c with Some raw => no_newline (comment_body raw) && chars_eqb raw (comment_token (comment_body raw)) | None => true end.
Definition hex_ok (t : chars) : bool := hex_token (removelast t) && chars_eqb t (removelast t ++ ["h"%char]).
Definition enum_ok (e : enum_row) : bool := sym_word (er_name e) && forallb (fun p => decimal_token (fst p) && plain_text (snd p)) (er_values e).
Definition number_keys : list string := ["/f:"; "/o:"; "/max:"; "/min:"; "/spn:"].
Definition attr_ok (a : sattr) : bool :=
  match a with
  | AUnit raw => body_ok (unit_body raw) && chars_eqb raw (unit_token (unit_body raw))
  | AKey k v => if String.eqb k "/e:" then sym_word v else existsb (String.eqb k) number_keys && decimal_token v
  end.
Definition sig_ok (s : sig_row) : bool :=
  plain_text (sr_name s) && sym_word (sr_type s) && match sr_len s with Some n => decimal_token n | None => false end &&
  forallb attr_ok (sr_attrs s) && comment_ok (sr_comment s).
Definition entry_ok (e : entry) : bool :=
  match e with
  | EId a b c => hex_ok a && match b with Some t => hex_ok t | None => true end && comment_ok c
  | EType t => sym_word t
  | ELen n | ECycle n false => decimal_token n
  | EMux n s l i f None => plain_text n && decimal_token s && decimal_token l && hex_ok i && forallb (fun x => String.eqb x "-m") f
  | ESig n s => plain_text n && decimal_token s
  | _ => false
  end.
Definition symbol_ok (s : symbol) : bool := plain_text (sy_name s) && forallb entry_ok (sy_entries s).
Definition rows_ok (f : sym_rows) : bool :=
  forallb enum_ok (f_enums f) && forallb sig_ok (f_signals f) && forallb symbol_ok (f_send f) && forallb symbol_ok (f_receive f) && forallb symbol_ok (f_both f).
Definition if_any {A} (l : list A) (s : section) : list section := match l with [] => [] | _ => [s] end.
Definition sections_of (f : sym_rows) : list section :=
  if_any (f_enums f) (SecEnums (f_enums f)) ++ if_any (f_signals f) (SecSignals (f_signals f)) ++ if_any (f_send f) (SecSymbols "{SEND}" (f_send f)) ++
  if_any (f_receive f) (SecSymbols "{RECEIVE}" (f_receive f)) ++ if_any (f_both f) (SecSymbols "{SENDRECEIVE}" (f_both f)).

(** ** The pieces can be told apart *)
Ltac sb H := repeat match type of H with andb _ _ = true => apply andb_true_iff in H; let H' := fresh H in destruct H as [H H'] end.
Lemma spok_cons p r n : spok (p :: r) n = spiece_ok p && snext_ok p (sfirst r n) && spok r n. Proof. reflexivity. Qed.
Lemma spok_flat {A} (f : A -> list spiece) l : (forall x n, In x l -> spok (f x) n = true) -> forall n, spok (flat_map f l) n = true.
Proof. induction l as [|x l IH]; intros H n; [reflexivity|]. cbn [flat_map]. rewrite spok_app, H by now left. apply IH. intros y m I. apply H. now right. Qed.
Lemma body_plain t : plain_text t = true -> body_ok t = true. Proof. intros H. apply plain_body, H. Qed.
Lemma kw_ok k r n : existsb (String.eqb k) sym_keywords = true -> spok (kw k ++ r) n = spok r n.
Proof.
  intros K. unfold kw. cbn [app]. rewrite !spok_cons. apply existsb_exists in K. destruct K as (x & I & E). apply String.eqb_eq in E. subst x.
  cbn [sym_keywords In] in I. repeat (destruct I as [<-|I]; [reflexivity|]). contradiction.
Qed.
Definition spaced (n : option ascii) : Prop := n = Some " "%char \/ n = Some newline.
Lemma num_spaced n t : spaced n -> snext_ok (SN t) n = true. Proof. intros [->| ->]; reflexivity. Qed.
Lemma word_spaced n t : spaced n -> snext_ok (SW t) n = true. Proof. intros [->| ->]; reflexivity. Qed.
Lemma end_spaced c n : spaced (sfirst (end_pieces c) n).
Proof. destruct c; [left|right]; reflexivity. Qed.
Lemma end_ok c n : comment_ok c = true -> spok (end_pieces c) n = true.
Proof.
  destruct c as [raw|]; [|reflexivity]. cbn [comment_ok end_pieces]. intros H. sb H. rewrite !spok_cons. cbn [spiece_ok]. rewrite H. reflexivity.
Qed.
Lemma values_ok l : forall i n, forallb (fun p => decimal_token (fst p) && plain_text (snd p)) l = true -> spok (value_pieces i l) n = true.
Proof.
  induction l as [|[a b] l IH]; intros i n H; [reflexivity|]. cbn [forallb fst snd] in H. apply andb_true_iff in H. destruct H as [H Hl]. apply andb_true_iff in H. destruct H as [Ha Hb].
  cbn [value_pieces]. rewrite spok_app. apply andb_true_iff. split.
  - unfold separator. destruct i; [reflexivity|]. cbn [spok]. now destruct (Nat.eqb _ _).
  - rewrite !spok_cons. cbn [spiece_ok]. rewrite Ha, (body_plain _ Hb). rewrite IH by exact Hl. reflexivity.
Qed.
Lemma enum_spok e n : enum_ok e = true -> spok (enum_pieces e) n = true.
Proof.
  unfold enum_ok, enum_pieces. intros H. sb H. rewrite kw_ok by reflexivity. rewrite !spok_cons. cbn [spiece_ok]. rewrite H, spok_app, values_ok by exact H0.
  reflexivity.
Qed.
Lemma attrs_spaced l c n : forallb attr_ok l = true -> spaced (sfirst (flat_map attr_pieces l ++ end_pieces c) n).
Proof. destruct l as [|a l]; intros H; [apply end_spaced|]. destruct a; left; reflexivity. Qed.
Lemma attr_key_ok k : existsb (String.eqb k) number_keys = true -> existsb (String.eqb k) literals = true /\ String.eqb k "/e:" = false.
Proof.
  intros H. apply existsb_exists in H. destruct H as (x & I & E). apply String.eqb_eq in E. subst x. cbn in I. repeat (destruct I as [<-|I]; [split; reflexivity|]). contradiction.
Qed.
Lemma attrs_ok l c n : forallb attr_ok l = true -> comment_ok c = true -> spok (flat_map attr_pieces l ++ end_pieces c) n = true.
Proof.
  induction l as [|a l IH]; intros H C; [apply end_ok, C|]. pose proof H as H'. cbn [forallb] in H. apply andb_true_iff in H. destruct H as [Ha Hl].
  cbn [flat_map]. rewrite <- app_assoc, spok_app, (IH Hl C), andb_true_r. pose proof (attrs_spaced l c n Hl) as S. revert S. generalize (sfirst (flat_map attr_pieces l ++ end_pieces c) n) as o. intros o S.
  destruct a as [raw|k v]; cbn [attr_pieces].
  - cbn [attr_ok] in Ha. sb Ha. rewrite !spok_cons. cbn [spiece_ok]. rewrite Ha. reflexivity.
  - cbn [attr_ok] in Ha. destruct (String.eqb k "/e:") eqn:E.
    + apply String.eqb_eq in E. subst k. rewrite !spok_cons. cbn [spiece_ok]. rewrite Ha. cbn [sfirst stext flat_map]. rewrite word_spaced by exact S. reflexivity.
    + sb Ha. destruct (attr_key_ok k Ha) as [L _]. rewrite !spok_cons. cbn [spiece_ok]. rewrite L, Ha0. cbn [sfirst stext flat_map]. rewrite num_spaced by exact S. reflexivity.
Qed.
Lemma sig_spok s n : sig_ok s = true -> spok (sig_pieces s) n = true.
Proof.
  unfold sig_ok, sig_pieces. intros H. sb H. destruct (sr_len s) as [t|]; [|discriminate]. rewrite kw_ok by reflexivity. rewrite !spok_cons. cbn [app spiece_ok]. rewrite (body_plain _ H), H3.
  rewrite !spok_cons. cbn [spiece_ok]. rewrite H2.
  assert (S : spaced (sfirst ((if sr_big s then [space; SL "-m"] else []) ++ flat_map attr_pieces (sr_attrs s) ++ end_pieces (sr_comment s)) n)).
  { destruct (sr_big s); [left; reflexivity|]. apply attrs_spaced, H1. }
  rewrite num_spaced by exact S. rewrite spok_app, attrs_ok by assumption. destruct (sr_big s); reflexivity.
Qed.
Lemma hex_ok_token t : hex_ok t = true -> hex_token (removelast t) = true. Proof. unfold hex_ok. intros H. sb H. exact H. Qed.
Lemma flags_ok f n : forallb (fun x => String.eqb x "-m") f = true -> spok (map SL f ++ [line_end]) n = true.
Proof.
  induction f as [|x f IH]; intros H; [reflexivity|]. cbn [forallb] in H. apply andb_true_iff in H. destruct H as [H1 H2]. apply String.eqb_eq in H1. subst x.
  cbn [map app]. rewrite spok_cons, IH by exact H2. reflexivity.
Qed.
Lemma entry_spok e n : entry_ok e = true -> spok (entry_pieces e) n = true.
Proof.
  destruct e as [a b c|t|nm s l i f c|t p|t|t|t|nm ty s l f a c|nm s|t|t]; cbn [entry_ok entry_pieces]; intros H; try discriminate.
  - sb H. rewrite kw_ok by reflexivity. rewrite spok_cons. cbn [spiece_ok hex_piece]. rewrite hex_ok_token by exact H. cbn [snext_ok andb].
    destruct b as [t|]; [|apply end_ok, H0]. cbn [app]. rewrite spok_cons. cbn [spiece_ok hex_piece]. rewrite hex_ok_token by exact H1. apply end_ok, H0.
  - rewrite kw_ok by reflexivity. rewrite !spok_cons. cbn [spiece_ok]. rewrite H. reflexivity.
  - destruct c; [discriminate|]. sb H. rewrite kw_ok by reflexivity. cbn [app]. rewrite !spok_cons. cbn [spiece_ok hex_piece].
    rewrite (body_plain _ H), H3, H2, hex_ok_token by exact H1. rewrite flags_ok by exact H0. reflexivity.
  - destruct p; [discriminate|]. rewrite kw_ok by reflexivity. rewrite !spok_cons. cbn [spiece_ok]. rewrite H. reflexivity.
  - sb H. rewrite kw_ok by reflexivity. rewrite !spok_cons. cbn [spiece_ok]. rewrite (body_plain _ H), H0. reflexivity.
  - rewrite kw_ok by reflexivity. rewrite !spok_cons. cbn [spiece_ok]. rewrite H. reflexivity.
Qed.
Lemma symbol_spok s n : symbol_ok s = true -> spok (symbol_pieces s) n = true.
Proof.
  unfold symbol_ok, symbol_pieces. intros H. sb H. rewrite !spok_cons. cbn [spiece_ok]. rewrite (body_plain _ H), spok_flat; [reflexivity|].
  intros e m I. apply entry_spok. rewrite forallb_forall in H0. now apply H0.
Qed.
Lemma section_spok k l n : existsb (String.eqb k) literals = true -> forallb symbol_ok l = true -> spok (section_pieces k l) n = true.
Proof.
  intros K H. destruct l as [|x l]; [reflexivity|]. unfold section_pieces. rewrite !spok_cons. cbn [spiece_ok]. rewrite K, spok_flat; [reflexivity|].
  intros s m I. rewrite spok_app, symbol_spok; [reflexivity|]. rewrite forallb_forall in H. now apply H.
Qed.
Lemma rows_spok {A} k (f : A -> list spiece) (ok : A -> bool) l n : existsb (String.eqb k) literals = true -> (forall x n, ok x = true -> spok (f x) n = true) ->
  forallb ok l = true -> spok (rows_pieces k f l) n = true.
Proof.
  intros K F H. destruct l as [|x l]; [reflexivity|]. unfold rows_pieces. rewrite !spok_cons. cbn [spiece_ok]. rewrite K, spok_app, spok_flat; [reflexivity|].
  intros s m I. apply F. rewrite forallb_forall in H. now apply H.
Qed.
Lemma file_spok f : rows_ok f = true -> spok (sym_pieces_of f) None = true.
Proof.
  unfold rows_ok, sym_pieces_of. intros H. sb H. rewrite !spok_app.
  rewrite (rows_spok "{ENUMS}" enum_pieces enum_ok) by (auto using enum_spok). rewrite (rows_spok "{SIGNALS}" sig_pieces sig_ok) by (auto using sig_spok).
  rewrite !section_spok by auto. reflexivity.
Qed.

Ltac by_ B := match type of B with _ = ?r => match goal with |- match ?x with _ => _ end = _ => replace x with r by (symmetry; exact B) end end.
(** ** The tokens of the rows *)
Definition head_in (ks : list string) (ts : list token) : bool := match ts with (k, _) :: _ => existsb (String.eqb k) ks | [] => true end.
Lemma head_cases ks ts : head_in ks ts = true -> ts = [] \/ exists k v r, ts = (k, v) :: r /\ In k ks.
Proof.
  destruct ts as [|[k v] r]; [now left|]. cbn. intros H. right. exists k, v, r. split; [reflexivity|]. apply existsb_exists in H. destruct H as (x & I & E). apply String.eqb_eq in E. now subst.
Qed.
Ltac heads H := destruct (head_cases _ _ H) as [->|(?k & ?v & ?r & -> & ?K)];
  [reflexivity|match goal with K : In _ _ |- _ => cbn [In app] in K; repeat (destruct K as [<-|K]; [reflexivity|]); contradiction end].
(** What a row or a section starts with *)
Definition section_heads : list string := ["{ENUMS}"; "{SIGNALS}"; "{SEND}"; "{RECEIVE}"; "{SENDRECEIVE}"].
Definition row_heads : list string := ["Enum"; "Sig"; "["] ++ section_heads.
Definition entry_heads : list string := ["ID"; "Len"; "Mux"; "CycleTime"; "Sig"; "Type"; "["] ++ section_heads.
Lemma alt_tok ks k v r : In k ks -> alt (map tok ks) ((k, v) :: r) = Some (v, r).
Proof.
  induction ks as [|x ks IH]; [contradiction|]. intros I. cbn [map alt]. unfold tok at 1. destruct (String.eqb_spec x k) as [->|N]; [reflexivity|]. apply IH. destruct I; [congruence|assumption].
Qed.
Lemma p_word_ok w r : p_word ((word_kind w, w) :: r) = Some (w, r).
Proof.
  apply alt_tok. unfold word_kind. destruct (sym_keyword w) eqn:E; [right|now left]. unfold sym_keyword in E. apply existsb_exists in E. destruct E as (x & I & E).
  apply String.eqb_eq in E. now rewrite E.
Qed.
Lemma plain_un t : plain_text t = true -> unescape t = t. Proof. intros H. apply plain_body, H. Qed.
Definition lit (l : string) : token := (l, txt l).
Lemma kw_tokens k r : existsb (String.eqb k) sym_keywords = true -> stokens (kw k ++ r) = lit k :: lit "=" :: stokens r.
Proof.
  intros K. apply existsb_exists in K. destruct K as (x & I & E). apply String.eqb_eq in E. subst x.
  cbn [sym_keywords In] in I. repeat (destruct I as [<-|I]; [reflexivity|]). contradiction.
Qed.
Lemma stokens_cons p r : stokens (p :: r) = spiece_tokens p ++ stokens r. Proof. reflexivity. Qed.
(** Comments *)
Definition comment_tokens (c : option chars) : list token := match c with Some raw => [("COMMENT", raw)] | None => [] end.
Lemma end_tokens c : comment_ok c = true -> stokens (end_pieces c) = comment_tokens c.
Proof. destruct c as [raw|]; [|reflexivity]. cbn [comment_ok]. intros H. sb H. apply chars_eqb_eq in H0. cbn [end_pieces comment_tokens stokens flat_map spiece_tokens app]. now rewrite <- H0. Qed.
Lemma comment_read c rest : (c = None -> head_in (row_heads ++ entry_heads) rest = true) -> p_comment (comment_tokens c ++ rest) = Some (c, rest).
Proof. destruct c as [raw|]; [reflexivity|]. intros H. specialize (H eq_refl). cbn [comment_tokens app]. heads H. Qed.
(** ** Enumerations *)
Definition value_token (p : chars * chars) : list token := [("NUMBER", fst p); lit "="; ("STRING", snd p)].
Lemma value_tokens l : forall i, forallb (fun p => decimal_token (fst p) && plain_text (snd p)) l = true ->
  stokens (value_pieces (S i) l) = flat_map (fun p => lit "," :: value_token p) l.
Proof.
  induction l as [|[a b] l IH]; intros i H; [reflexivity|]. cbn [forallb fst snd] in H. apply andb_true_iff in H. destruct H as [H Hl]. sb H.
  cbn [value_pieces flat_map]. rewrite stokens_app, !stokens_cons, IH by exact Hl. cbn [spiece_tokens]. rewrite (plain_un _ H0).
  unfold separator. destruct (Nat.eqb _ _); reflexivity.
Qed.
Lemma enum_read e rest : enum_ok e = true -> head_in row_heads rest = true -> p_enum (stokens (enum_pieces e) ++ rest) = Some (e, rest).
Proof.
  destruct e as [n l]. unfold enum_ok, enum_pieces. cbn [er_name er_values]. intros H R. sb H. rewrite kw_tokens, !stokens_cons by reflexivity. cbn [spiece_tokens app].
  unfold p_enum, pbind at 1 2 3. cbn [tok lit String.eqb Ascii.eqb Bool.eqb]. rewrite p_word_ok. unfold pbind at 1. cbn [tok String.eqb Ascii.eqb Bool.eqb].
  rewrite stokens_app, <- app_assoc. unfold pbind at 1.
  assert (E : opt p_enum_values (stokens (value_pieces 0 l) ++ stokens [SL ")"; line_end] ++ rest) =
              Some (match l with [] => None | _ => Some l end, stokens [SL ")"; line_end] ++ rest)).
  { destruct l as [|[a b] l]; [reflexivity|]. cbn [forallb fst snd] in H0. apply andb_true_iff in H0. destruct H0 as [H0 Hl]. sb H0.
    cbn [value_pieces separator app]. rewrite !stokens_cons, value_tokens by exact Hl. cbn [spiece_tokens]. rewrite (plain_un _ H1). cbn [app].
    unfold opt, p_enum_values, pbind. cbn [p_enum_value tok pbind pret String.eqb Ascii.eqb Bool.eqb].
    rewrite (many_flat _ (fun p => lit "," :: value_token p) (fun _ => True)); [reflexivity| | | | |]; auto.
    - intros [c d] r _ _. reflexivity.
    - discriminate. }
  rewrite E. cbn [stokens flat_map spiece_tokens line_end app]. unfold pbind at 1. cbn [tok String.eqb Ascii.eqb Bool.eqb].
  unfold pbind. pose proof (comment_read None rest) as C. cbn [comment_tokens app] in C. rewrite C; [destruct l; reflexivity|].
  intros _. unfold head_in in *. destruct rest as [|[k v] r]; [reflexivity|]. rewrite existsb_app, R. reflexivity.
Qed.
(** ** Signals *)
Definition attr_tokens (a : sattr) : list token :=
  match a with AUnit raw => [("/u:", raw)] | AKey k v => [lit k; ((if String.eqb k "/e:" then word_kind v else "NUMBER"), v)] end.
Lemma attr_pieces_tokens a : attr_ok a = true -> stokens (attr_pieces a) = attr_tokens a.
Proof.
  destruct a as [raw|k v]; cbn [attr_ok attr_pieces attr_tokens]; intros H.
  - sb H. apply chars_eqb_eq in H0. cbn [stokens flat_map spiece_tokens space app]. now rewrite <- H0.
  - destruct (String.eqb k "/e:"); reflexivity.
Qed.
Lemma attr_read a rest : attr_ok a = true -> alt sig_attrs (attr_tokens a ++ rest) = Some (a, rest).
Proof.
  destruct a as [raw|k v]; cbn [attr_ok attr_tokens]; intros H; [reflexivity|]. destruct (String.eqb_spec k "/e:") as [->|N].
  - cbn [app lit]. unfold sig_attrs, var_attrs, p_key. cbn [app alt]. unfold pbind. cbn [tok lit String.eqb Ascii.eqb Bool.eqb]. rewrite p_word_ok. reflexivity.
  - sb H. apply existsb_exists in H. destruct H as (x & I & E). apply String.eqb_eq in E. subst x. cbn in I. repeat (destruct I as [<-|I]; [reflexivity|]). contradiction.
Qed.
Lemma flat_map_ext_in {A B} (f g : A -> list B) l : (forall x, In x l -> f x = g x) -> flat_map f l = flat_map g l.
Proof. induction l as [|x l IH]; intros H; [reflexivity|]. cbn. rewrite H by now left. f_equal. apply IH. intros y I. apply H. now right. Qed.
Lemma stokens_flat {A} (f : A -> list spiece) l : stokens (flat_map f l) = flat_map (fun x => stokens (f x)) l.
Proof. induction l as [|x l IH]; [reflexivity|]. cbn [flat_map]. now rewrite stokens_app, IH. Qed.
Definition attr_heads : list string := "/u:" :: "/e:" :: number_keys.
Lemma attrs_head l rest ks : forallb attr_ok l = true -> head_in ks rest = true -> head_in (attr_heads ++ ks) (flat_map attr_tokens l ++ rest) = true.
Proof.
  intros H R. destruct l as [|a l].
  - cbn [flat_map app]. unfold head_in in *. destruct rest as [|[k v] r]; [reflexivity|]. rewrite existsb_app, R. apply orb_true_r.
  - cbn [forallb] in H. apply andb_true_iff in H. destruct H as [H _]. destruct a as [raw|k v]; [reflexivity|]. cbn [attr_ok] in H. cbn [flat_map attr_tokens app lit head_in attr_heads existsb].
    destruct (String.eqb k "/e:"); [rewrite orb_true_r; reflexivity|]. sb H. unfold number_keys in *. cbn [app existsb] in *. rewrite !orb_true_iff in *. tauto.
Qed.
Lemma comment_head c rest ks : head_in ks rest = true -> head_in ("COMMENT" :: ks) (comment_tokens c ++ rest) = true.
Proof. destruct c; [reflexivity|]. cbn [comment_tokens app]. unfold head_in. destruct rest as [|[k v] r]; [reflexivity|]. cbn [existsb]. intros ->. apply orb_true_r. Qed.
Lemma sig_read s rest : sig_ok s = true -> head_in row_heads rest = true -> p_sig (stokens (sig_pieces s) ++ rest) = Some (s, rest).
Proof.
  destruct s as [n ty len big at_ c]. unfold sig_ok, sig_pieces. cbn [sr_name sr_type sr_len sr_big sr_attrs sr_comment]. intros H R. sb H. destruct len as [t|]; [|discriminate].
  rewrite kw_tokens, !stokens_cons by reflexivity. cbn [spiece_tokens app space]. rewrite !stokens_cons. cbn [spiece_tokens app space]. rewrite (plain_un _ H).
  rewrite stokens_app, (stokens_app (flat_map _ _)), stokens_flat, (end_tokens _ H0), <- !app_assoc.
  rewrite (flat_map_ext_in (fun x => stokens (attr_pieces x)) attr_tokens) by (intros x I; apply attr_pieces_tokens; rewrite forallb_forall in H1; auto).
  assert (HC := comment_head c rest row_heads R). assert (HA := attrs_head at_ _ _ H1 HC).
  assert (M : many (alt sig_attrs) (flat_map attr_tokens at_ ++ comment_tokens c ++ rest) = Some (at_, comment_tokens c ++ rest)).
  { apply (many_flat _ _ (fun _ => True)); auto.
    - intros x r I _. apply attr_read. rewrite forallb_forall in H1. auto.
    - intros x I. destruct x; discriminate.
    - heads HC. }
  set (tail := flat_map attr_tokens at_ ++ comment_tokens c ++ rest) in *. clearbody tail.
  unfold p_sig, pbind at 1 2 3. cbn [tok p_any lit String.eqb Ascii.eqb Bool.eqb]. unfold pbind at 1. rewrite p_word_ok. unfold pbind at 1.
  assert (B1 : opt (tok "NUMBER") (("NUMBER", t) :: stokens (if big then [space; SL "-m"] else []) ++ tail) = Some (Some t, stokens (if big then [space; SL "-m"] else []) ++ tail)) by reflexivity.
  by_ B1. unfold pbind at 1.
  assert (B2 : opt (alt [tok "-h"; tok "-b"]) (stokens (if big then [space; SL "-m"] else []) ++ tail) = Some (None, stokens (if big then [space; SL "-m"] else []) ++ tail)).
  { destruct big; [reflexivity|]. cbn [stokens flat_map app]. clear - HA. heads HA. }
  by_ B2. unfold pbind at 1.
  assert (B3 : opt (tok "-m") (stokens (if big then [space; SL "-m"] else []) ++ tail) = Some (if big then Some (txt "-m") else None, tail)).
  { destruct big; [reflexivity|]. cbn [stokens flat_map app]. clear - HA. heads HA. }
  by_ B3. unfold pbind at 1. by_ M. unfold pbind. rewrite comment_read; [now destruct big|].
  intros _. unfold head_in in *. destruct rest as [|[k v] r]; [reflexivity|]. rewrite existsb_app, R. reflexivity.
Qed.
(** ** Messages *)
Lemma hex_tokens t : hex_ok t = true -> spiece_tokens (hex_piece t) = [("HEXNUMBER", t)].
Proof. unfold hex_ok. intros H. sb H. apply chars_eqb_eq in H0. cbn [hex_piece spiece_tokens]. now rewrite <- H0. Qed.
Definition entry_tokens (e : entry) : list token :=
  match e with
  | EId a b c => lit "ID" :: lit "=" :: ("HEXNUMBER", a) :: match b with Some t => [("HEXNUMBER", t)] | None => [] end ++ comment_tokens c
  | EType t => [lit "Type"; lit "="; (word_kind t, t)]
  | ELen n => [lit "Len"; lit "="; ("NUMBER", n)]
  | ECycle n _ => [lit "CycleTime"; lit "="; ("NUMBER", n)]
  | EMux n s l i f _ => [lit "Mux"; lit "="; ("STRING", n); ("NUMBER", s); lit ","; ("NUMBER", l); ("HEXNUMBER", i)] ++ map lit f
  | ESig n s => [lit "Sig"; lit "="; ("STRING", n); ("NUMBER", s)]
  | _ => []
  end.
Lemma flag_tokens f : stokens (map SL f ++ [line_end]) = map lit f.
Proof. induction f as [|x f IH]; [reflexivity|]. cbn [map app]. rewrite stokens_cons, IH. reflexivity. Qed.
Lemma entry_pieces_tokens e : entry_ok e = true -> stokens (entry_pieces e) = entry_tokens e.
Proof.
  destruct e as [a b c|t|nm s l i f c|t p|t|t|t|nm ty s l f a c|nm s|t|t]; cbn [entry_ok entry_pieces entry_tokens]; intros H; try discriminate.
  - sb H. rewrite kw_tokens by reflexivity. rewrite stokens_cons, (hex_tokens a H), stokens_app, (end_tokens c H0).
    destruct b as [t|]; [|reflexivity]. rewrite stokens_cons, (hex_tokens t H1). reflexivity.
  - rewrite kw_tokens by reflexivity. reflexivity.
  - destruct c; [discriminate|]. sb H. rewrite kw_tokens by reflexivity. cbn [app]. rewrite !stokens_cons, (hex_tokens i H1), flag_tokens. cbn [spiece_tokens space app]. now rewrite (plain_un _ H).
  - rewrite kw_tokens by reflexivity. reflexivity.
  - sb H. rewrite kw_tokens by reflexivity. rewrite !stokens_cons. cbn [spiece_tokens space app]. now rewrite (plain_un _ H).
  - rewrite kw_tokens by reflexivity. reflexivity.
Qed.
Lemma flags_read f rest : forallb (fun x => String.eqb x "-m") f = true -> head_in entry_heads rest = true ->
  many (alt [p_flag "-t"; p_flag "-m"]) (map lit f ++ rest) = Some (f, rest).
Proof.
  intros F R. replace (map lit f) with (flat_map (fun x => [lit x]) f) by (clear; induction f as [|x f IH]; [reflexivity|]; cbn; now rewrite IH).
  apply (many_flat _ _ (fun _ => True)); auto.
  - intros x r I _. rewrite forallb_forall in F. specialize (F x I). apply String.eqb_eq in F. subst x. reflexivity.
  - discriminate.
  - heads R.
Qed.
Lemma head_more ks ks' ts : head_in ks ts = true -> head_in (ks' ++ ks) ts = true.
Proof. unfold head_in. destruct ts as [|[k v] r]; [reflexivity|]. rewrite existsb_app. intros ->. apply orb_true_r. Qed.
Lemma entry_read e rest : entry_ok e = true -> head_in entry_heads rest = true -> alt p_entries (entry_tokens e ++ rest) = Some (e, rest).
Proof.
  destruct e as [a b c|t|nm s l i f c|t p|t|t|t|nm ty s l f a c|nm s|t|t]; cbn [entry_ok entry_tokens]; intros H R; try discriminate.
  - rewrite <- !app_comm_cons, <- app_assoc.
    assert (C : p_comment (comment_tokens c ++ rest) = Some (c, rest)) by (apply comment_read; intros _; apply head_more, R).
    unfold p_entries. cbn [alt]. unfold pbind at 1 2 3. cbn [tok lit String.eqb Ascii.eqb Bool.eqb]. unfold pbind at 1.
    destruct b as [t|].
    + cbn [app opt tok String.eqb Ascii.eqb Bool.eqb]. unfold pbind at 1. unfold token in *. rewrite C. reflexivity.
    + cbn [app]. assert (O : opt (tok "HEXNUMBER") (comment_tokens c ++ rest) = Some (None, comment_tokens c ++ rest)).
      { destruct c; [reflexivity|]. cbn [comment_tokens app]. heads R. }
      unfold token in *. rewrite O. unfold pbind at 1. unfold token in *. rewrite C. reflexivity.
  - reflexivity.
  - destruct c; [discriminate|]. sb H. cbn [app]. unfold p_entries. set (M := many (alt [p_flag "-t"; p_flag "-m"])). cbn [alt]. unfold pbind at 1. cbn [tok lit String.eqb Ascii.eqb Bool.eqb].
    unfold pbind at 1. cbn [tok lit String.eqb Ascii.eqb Bool.eqb]. unfold pbind at 1. cbn [tok lit String.eqb Ascii.eqb Bool.eqb].
    do 6 (unfold pbind at 1; cbn [tok p_any lit alt String.eqb Ascii.eqb Bool.eqb]). unfold pbind at 1. pose proof (flags_read f rest H0 R) as FR. fold M in FR. unfold token in *. rewrite FR. unfold pbind at 1.
    pose proof (comment_read None rest) as C. cbn [comment_tokens app] in C. unfold token in *. rewrite C; [reflexivity|]. intros _. apply head_more, R.
  - destruct p; [discriminate|]. cbn [app].
    assert (O : opt (tok "-p") rest = Some (None, rest)) by heads R.
    unfold p_entries. cbn [alt]. unfold pbind. cbn [tok lit String.eqb Ascii.eqb Bool.eqb]. rewrite O. reflexivity.
  - reflexivity.
  - reflexivity.
Qed.
Lemma entry_head e rest : entry_ok e = true -> head_in entry_heads (entry_tokens e ++ rest) = true.
Proof. destruct e; cbn [entry_ok]; intros H; try discriminate; reflexivity. Qed.
Lemma symbol_read s rest : symbol_ok s = true -> head_in ("[" :: section_heads) rest = true -> p_symbol (stokens (symbol_pieces s ++ [line_end]) ++ rest) = Some (s, rest).
Proof.
  destruct s as [n l]. unfold symbol_ok, symbol_pieces. cbn [sy_name sy_entries]. intros H R. sb H. rewrite <- !app_comm_cons, !stokens_cons. cbn [spiece_tokens line_end app]. rewrite (plain_un _ H).
  rewrite stokens_app, stokens_flat. cbn [stokens flat_map spiece_tokens line_end app]. rewrite app_nil_r.
  rewrite (flat_map_ext_in (fun x => stokens (entry_pieces x)) entry_tokens) by (intros x I; apply entry_pieces_tokens; rewrite forallb_forall in H0; auto).
  unfold p_symbol. do 3 (unfold pbind at 1; cbn [tok p_any lit String.eqb Ascii.eqb Bool.eqb]). unfold pbind.
  rewrite (many_flat _ entry_tokens (fun ts => head_in entry_heads ts = true)); [reflexivity| | | | |].
  - intros x r I Q. apply entry_read; [|exact Q]. rewrite forallb_forall in H0. auto.
  - intros x r I Q. apply entry_head. rewrite forallb_forall in H0. auto.
  - intros x I E. rewrite forallb_forall in H0. specialize (H0 x I). destruct x; cbn [entry_ok] in H0; discriminate.
  - exact (head_more _ ["ID"; "Len"; "Mux"; "CycleTime"; "Sig"; "Type"] _ R).
  - heads R.
Qed.
(** ** Sections *)
Lemma somes_map {A} (l : list A) : somes (map Some l) = l. Proof. induction l as [|x l IH]; [reflexivity|]. cbn. now f_equal. Qed.
Lemma rows_read {A} (p : parser A) (f : A -> list token) (ok : A -> bool) start ks l rest :
  forallb ok l = true -> (forall x r, ok x = true -> head_in ks r = true -> p (f x ++ r) = Some (x, r)) ->
  (forall x, ok x = true -> exists v r, f x = (start, v) :: r) -> existsb (String.eqb start) ks = true ->
  head_in ks rest = true -> alt [do x <- p; pret (Some x); do _ <- tok "COMMENT"; pret None] rest = None ->
  p_rows p (flat_map f l ++ rest) = Some (l, rest).
Proof.
  intros L P S K R N. unfold p_rows, pbind at 1. rewrite forallb_forall in L.
  replace (flat_map f l) with (flat_map (fun o => match o with Some x => f x | None => [] end) (map Some l)) by (clear; induction l as [|x l IH]; [reflexivity|]; cbn; now rewrite IH).
  rewrite (many_flat _ (fun o => match o with Some x => f x | None => [] end) (fun ts => head_in ks ts = true)); [unfold pret; now rewrite somes_map| | | |exact R|exact N].
  - intros o r I Q. apply in_map_iff in I. destruct I as (x & <- & I). cbn [alt]. unfold pbind at 1. rewrite P by auto. reflexivity.
  - intros o r I Q. apply in_map_iff in I. destruct I as (x & <- & I). destruct (S x (L x I)) as (v & t & ->). exact K.
  - intros o I. apply in_map_iff in I. destruct I as (x & <- & I). destruct (S x (L x I)) as (v & t & ->). discriminate.
Qed.
Definition section_ok (s : section) : bool :=
  match s with
  | SecEnums l => forallb enum_ok l
  | SecSignals l => forallb sig_ok l
  | SecSymbols k l => existsb (String.eqb k) ["{SEND}"; "{RECEIVE}"; "{SENDRECEIVE}"] && forallb symbol_ok l
  end.
Definition section_tokens (s : section) : list token :=
  match s with
  | SecEnums l => lit "{ENUMS}" :: flat_map (fun e => stokens (enum_pieces e)) l
  | SecSignals l => lit "{SIGNALS}" :: flat_map (fun s => stokens (sig_pieces s)) l
  | SecSymbols k l => lit k :: flat_map (fun s => stokens (symbol_pieces s ++ [line_end])) l
  end.
Lemma section_read s rest : section_ok s = true -> head_in section_heads rest = true -> p_section (section_tokens s ++ rest) = Some (s, rest).
Proof.
  intros H R. destruct s as [l|l|k l]; cbn [section_ok section_tokens] in *; rewrite <- app_comm_cons.
  - unfold p_section. cbn [alt]. unfold pbind at 1. cbn [tok lit String.eqb Ascii.eqb Bool.eqb]. unfold pbind at 1.
    rewrite (rows_read p_enum _ enum_ok "Enum" row_heads); [reflexivity|exact H|exact enum_read| |reflexivity|exact (head_more _ ["Enum"; "Sig"; "["] _ R)|heads R].
    intros x X. unfold enum_pieces. rewrite kw_tokens by reflexivity. eexists _, _. reflexivity.
  - unfold p_section. cbn [alt]. do 2 (unfold pbind at 1; cbn [tok lit String.eqb Ascii.eqb Bool.eqb]). unfold pbind at 1.
    rewrite (rows_read p_sig _ sig_ok "Sig" row_heads); [reflexivity|exact H|exact sig_read| |reflexivity|exact (head_more _ ["Enum"; "Sig"; "["] _ R)|heads R].
    intros x X. unfold sig_pieces. rewrite kw_tokens by reflexivity. eexists _, _. reflexivity.
  - apply andb_true_iff in H. destruct H as [K H].
    assert (S : p_symbols k (lit k :: flat_map (fun s => stokens (symbol_pieces s ++ [line_end])) l ++ rest) = Some (SecSymbols k l, rest)).
    { unfold p_symbols, pbind at 1. unfold tok at 1, lit at 1. rewrite String.eqb_refl. unfold pbind at 1.
      rewrite (rows_read p_symbol _ symbol_ok "[" ("[" :: section_heads)); [reflexivity|exact H|exact symbol_read| |reflexivity|exact (head_more _ ["["] _ R)|heads R].
      intros x X. eexists _, _. reflexivity. }
    apply existsb_exists in K. destruct K as (x & I & E). apply String.eqb_eq in E. subst x. cbn [In] in I.
    destruct I as [<-|[<-|[<-|[]]]]; (etransitivity; [|exact S]).
    + change (p_section (lit "{SEND}" :: flat_map (fun s => stokens (symbol_pieces s ++ [line_end])) l ++ rest)) with
        (alt [p_symbols "{SEND}"; p_symbols "{RECEIVE}"; p_symbols "{SENDRECEIVE}"] (lit "{SEND}" :: flat_map (fun s => stokens (symbol_pieces s ++ [line_end])) l ++ rest)).
      unfold alt. rewrite S. reflexivity.
    + change (p_section (lit "{RECEIVE}" :: flat_map (fun s => stokens (symbol_pieces s ++ [line_end])) l ++ rest)) with
        (alt [p_symbols "{RECEIVE}"; p_symbols "{SENDRECEIVE}"] (lit "{RECEIVE}" :: flat_map (fun s => stokens (symbol_pieces s ++ [line_end])) l ++ rest)).
      unfold alt. rewrite S. reflexivity.
    + change (p_section (lit "{SENDRECEIVE}" :: flat_map (fun s => stokens (symbol_pieces s ++ [line_end])) l ++ rest)) with
        (alt [p_symbols "{SENDRECEIVE}"] (lit "{SENDRECEIVE}" :: flat_map (fun s => stokens (symbol_pieces s ++ [line_end])) l ++ rest)).
      unfold alt. rewrite S. reflexivity.
Qed.
Lemma section_start s rest : section_ok s = true -> head_in section_heads (section_tokens s ++ rest) = true.
Proof.
  destruct s as [l|l|k l]; cbn [section_ok section_tokens app lit head_in section_heads existsb]; intros H; try reflexivity. apply andb_true_iff in H. destruct H as [H _].
  cbn [existsb] in H. rewrite !orb_true_iff in *. tauto.
Qed.
Lemma rows_tokens {A} k (f : A -> list spiece) l : stokens (rows_pieces k f l) = match l with [] => [] | _ => lit k :: flat_map (fun x => stokens (f x)) l end.
Proof.
  destruct l as [|x l]; [reflexivity|]. unfold rows_pieces. rewrite !stokens_cons, stokens_app, stokens_flat. cbn [spiece_tokens line_end stokens flat_map app]. now rewrite app_nil_r.
Qed.
Lemma symbols_tokens k l : stokens (section_pieces k l) = match l with [] => [] | _ => lit k :: flat_map (fun s => stokens (symbol_pieces s ++ [line_end])) l end.
Proof. destruct l as [|x l]; [reflexivity|]. unfold section_pieces. rewrite !stokens_cons, stokens_flat. reflexivity. Qed.
(** The rows are read as they were written. *)
Theorem rows_back f : rows_ok f = true -> sym_parse (sym_text f) = Some (txt "6.0", sections_of f).
Proof.
  intros H. unfold sym_parse, sym_text. rewrite sym_text_tokens by now apply file_spok.
  assert (T : stokens (sym_pieces_of f) = [lit "FormatVersion"; lit "="; ("NUMBER", txt "6.0"); ("COMMENT", comment_token (txt " Do not edit this line!")); lit "Title"; lit "="; ("STRING", txt "SYM Database")] ++
     flat_map section_tokens (sections_of f)).
  { unfold sym_pieces_of, sections_of. rewrite !stokens_app, !rows_tokens, !symbols_tokens, !flat_map_app.
    destruct f as [a b c d e]; cbn [f_enums f_signals f_send f_receive f_both].
    assert (F : forall A (l : list A) s, flat_map section_tokens (if_any l s) = match l with [] => [] | _ => section_tokens s end) by (intros ? [|] ?; [reflexivity|]; cbn [if_any flat_map]; apply app_nil_r).
    rewrite !F. reflexivity. }
  rewrite T. clear T. unfold rows_ok in H. sb H.
  assert (OK : forallb section_ok (sections_of f) = true).
  { unfold sections_of. rewrite !forallb_app.
    assert (F : forall A (l : list A) s, section_ok s = true -> forallb section_ok (if_any l s) = true) by (intros ? [|] ? X; [reflexivity|]; cbn [if_any forallb]; now rewrite X).
    rewrite !F by assumption. reflexivity. }
  rewrite forallb_forall in OK.
  assert (M : many p_section (flat_map section_tokens (sections_of f) ++ []) = Some (sections_of f, [])).
  { apply (many_flat _ _ (fun ts => head_in section_heads ts = true)); [| | |reflexivity|reflexivity].
    - intros x r I Q. apply section_read; auto.
    - intros x r I Q. apply section_start; auto.
    - intros x I. destruct x; discriminate. }
  rewrite app_nil_r in M.
  assert (HS : head_in section_heads (flat_map section_tokens (sections_of f)) = true).
  { destruct (sections_of f) as [|s l]; [reflexivity|]. cbn [flat_map]. apply section_start, OK. now left. }
  assert (ST : many p_settings (lit "Title" :: lit "=" :: ("STRING", txt "SYM Database") :: flat_map section_tokens (sections_of f)) = Some ([tt], flat_map section_tokens (sections_of f))).
  { assert (SN : p_settings (flat_map section_tokens (sections_of f)) = None) by heads HS.
    unfold many. cbn [List.length many_fuel]. change (p_settings (lit "Title" :: lit "=" :: ("STRING", txt "SYM Database") :: flat_map section_tokens (sections_of f))) with (Some (tt, flat_map section_tokens (sections_of f))).
    cbn [many_fuel]. now rewrite SN. }
  match goal with |- match p_file ?ts with _ => _ end = _ => assert (P : p_file ts = Some ((txt "6.0", sections_of f), [])) end.
  { cbn [app]. unfold p_file. unfold pbind at 1. cbn [p_comment opt tok lit String.eqb Ascii.eqb Bool.eqb].
    do 4 (unfold pbind at 1; cbn [tok lit String.eqb Ascii.eqb Bool.eqb]). unfold pbind at 1. by_ ST. unfold pbind at 1. by_ M. reflexivity. }
  rewrite P. reflexivity.
Qed.
