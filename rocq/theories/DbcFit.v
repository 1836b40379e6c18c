(** DbcFit: the databases that can be written as a DBC file and read back, and the file that is written for them.
    The conditions are on a database whose names are already those of the file. *)
From Coq Require Import Ascii Permutation.
From Verif Require Import Base CSource CNames DictLemmas Regex DecText DbcNames DbcToken DbcLex DbcStmt DbcPieces DbcParse DbcGrammar DbcDump DbcLoad DbcTables.
Local Open Scope string_scope.
Local Open Scope Z_scope.
Local Open Scope list_scope.

(** What is used of floating point numbers: str() of a finite float is a number that int() refuses and that float() reads
    back, and integers of up to 53 bits are represented. *)
Class FloatLaws (FL : Floats) := {
  f_finite : F -> bool;
  finite_text : forall f, f_finite f = true -> number_token (f_text f) = true /\ f_read (f_text f) = Some f /\ int_text (f_text f) = None;
  int_finite : forall z, Z.abs z <= 2 ^ 53 -> f_finite (f_int z) = true /\ f_read (decimal z) = Some (f_int z) /\ f_trunc (f_text (f_int z)) = Some z }.

Section NoDupBy.
  Context {A : Type} (eqb : A -> A -> bool) (spec : forall a b, reflect (a = b) (eqb a b)).
  Fixpoint nodup_by (l : list A) : bool := match l with [] => true | x :: r => negb (existsb (eqb x) r) && nodup_by r end.
  Lemma nodup_by_spec l : nodup_by l = true -> NoDup l.
  Proof.
    induction l as [|x r IH]; intros H; constructor; cbn [nodup_by] in H; apply andb_true_iff in H; destruct H as [H1 H2]; [|apply IH, H2].
    intros I. apply negb_true_iff in H1. assert (E : existsb (eqb x) r = true); [|congruence].
    apply existsb_exists. exists x. split; [exact I|]. destruct (spec x x); congruence.
  Qed.
End NoDupBy.

Section Fit.
Context {FL : Floats} {LW : FloatLaws FL}.

(** ** Numbers *)
Definition num_ok (n : num) : bool := match n with DInt _ => true | DFloat f => f_finite f end.
Definition small (z : Z) : bool := Z.abs z <=? 2 ^ 53.
Definition real_ok (n : num) : bool := match n with DInt z => small z | DFloat f => f_finite f end.
Lemma split_decimal z : number_split (decimal z) = int_number z.
Proof.
  unfold int_number. destruct (Z.ltb_spec z 0) as [H|H].
  - rewrite decimal_neg by exact H. rewrite (Z.abs_neq z) by lia. unfold number_split. cbn [take_sign].
    change (is_sign "-") with true. cbn iota. set (t := decimal (- z)).
    assert (T : take_digits t = (t, [])).
    { subst t. pose proof (decimal_digits (- z) ltac:(lia)) as D. induction (decimal (- z)) as [|c r IH]; [reflexivity|]. cbn [forallb] in D.
      apply andb_true_iff in D. destruct D as [D1 D2]. cbn [take_digits]. rewrite D1, IH by exact D2. reflexivity. }
    rewrite T. reflexivity.
  - rewrite (Z.abs_eq z) by lia. set (t := decimal z). pose proof (decimal_digits z H) as D. fold t in D.
    assert (T : take_digits t = (t, [])).
    { clearbody t. induction t as [|c r IH]; [reflexivity|]. cbn [forallb] in D. apply andb_true_iff in D. destruct D as [D1 D2]. cbn [take_digits]. rewrite D1, IH by exact D2. reflexivity. }
    assert (S : take_sign t = ([], t)).
    { clearbody t. destruct t as [|c r]; [reflexivity|]. cbn [forallb] in D. apply andb_true_iff in D. destruct D as [D1 D2]. unfold take_sign.
      destruct (is_sign c) eqn:E; [|reflexivity]. unfold is_sign in E. apply orb_true_iff in E. destruct E as [E|E]; apply Ascii.eqb_eq in E; subst c; discriminate D1. }
    unfold number_split. rewrite S, T. reflexivity.
Qed.
Lemma number_decimal z : number_token (decimal z) = true.
Proof. unfold number_token. rewrite split_decimal, int_number_ok, int_number_text. cbn [andb]. apply chars_eqb_refl. Qed.
Lemma num_token n : num_ok n = true -> number_token (num_text n) = true.
Proof. destruct n; cbn; intros H; [apply number_decimal|apply finite_text, H]. Qed.
Lemma read_num_text n : num_ok n = true -> read_num (num_text n) = Ok n.
Proof.
  destruct n as [z|f]; cbn [num_ok num_text]; intros H; unfold read_num.
  - rewrite int_decimal. reflexivity.
  - destruct (finite_text f H) as (_ & R & I). rewrite I, R. reflexivity.
Qed.
Lemma int_of_decimal z : int_of (decimal z) = Ok z.
Proof. unfold int_of. rewrite int_decimal. reflexivity. Qed.
Lemma to_int_decimal z : to_int (decimal z) = Ok z.
Proof. unfold to_int. rewrite int_decimal. reflexivity. Qed.
Lemma to_real_num n : real_ok n = true -> to_real (num_text n) = Ok (to_float n).
Proof.
  unfold to_real. destruct n as [z|f]; cbn [real_ok num_text to_float]; intros H.
  - apply Z.leb_le in H. destruct (int_finite z H) as (_ & R & _). rewrite R. reflexivity.
  - destruct (finite_text f H) as (_ & R & _). rewrite R. reflexivity.
Qed.
Lemma real_num n : real_ok n = true -> num_ok n = true. Proof. destruct n; [reflexivity|trivial]. Qed.
Lemma int0_of_decimal z : 0 <= z -> int0_of (decimal z) = Ok z.
Proof.
  intros H. unfold int0_of. pose proof (decimal_digits z H) as D. destruct (decimal z) as [|c r] eqn:E; [exfalso; exact (decimal_nonnil z E)|].
  cbn [forallb] in D. apply andb_true_iff in D. destruct D as [D1 D2]. rewrite (digit_not c "-" D1), (digit_not c "+" D1) by reflexivity. cbn [orb].
  rewrite <- E. destruct r as [|c' r]; [apply int_of_decimal|].
  assert (P : z <> 0). { intros ->. discriminate E. } pose proof (decimal_head z ltac:(lia)) as P2. rewrite E in P2.
  destruct (Ascii.eqb_spec c "0") as [->|]; [exfalso; vm_compute in P2; apply P2; reflexivity|]. apply int_of_decimal.
Qed.

(** ** Definitions *)
Definition is_int_type (t : chars) : bool := chars_eqb t (txt "INT") || chars_eqb t (txt "HEX").
Definition is_float_type (t : chars) : bool := chars_eqb t (txt "FLOAT").
Definition bound_ok (t : chars) (n : num) : bool :=
  if is_int_type t then match n with DInt _ => true | _ => false end else is_float_type t && real_ok n.
Definition bounds_ok (d : definition) : bool :=
  match d_min d, d_max d with
  | None, None => true
  | Some a, Some b => bound_ok (d_type d) a && bound_ok (d_type d) b
  | _, _ => false
  end.
Definition default_ok (t : chars) (v : aval) : bool :=
  if is_int_type t then match v with AInt _ => true | _ => false end
  else if is_float_type t then match v with AFloat f => f_finite f | AInt z => small z | AStr _ => false end
  else match v with AStr s => plain_text s | _ => false end.
Definition choices_ok (d : definition) : bool :=
  if chars_eqb (d_type d) (txt "ENUM") then forallb plain_text (d_choices d) else match d_choices d with [] => true | _ => false end.
Definition kind_fits (rel : bool) (k : option string) : bool :=
  if rel then match k with Some k => in_strings rel_kinds k | None => false end else opt_ok (in_strings kinds) k.
Definition def_ok (rel : bool) (d : definition) : bool :=
  known_type d && plain_text (d_name d) && kind_fits rel (d_kind d) && bounds_ok d && opt_ok (default_ok (d_type d)) (d_default d) && choices_ok d.
Definition defs_ok (rel : bool) (l : definitions) : bool :=
  forallb (fun p => chars_eqb (fst p) (d_name (snd p)) && def_ok rel (snd p)) l && nodup_by chars_eqb (map fst l).
(** What is read for a definition: the numbers of FLOAT definitions are floats. *)
Definition real_value (v : aval) : aval := match v with AInt z => AFloat (f_int z) | v => v end.
Definition view_def (d : definition) : definition :=
  if is_float_type (d_type d) then
    Def (d_name d) (option_map real_value (d_default d)) (d_kind d) (d_type d) (option_map (fun n => DFloat (to_float n)) (d_min d))
      (option_map (fun n => DFloat (to_float n)) (d_max d)) (d_choices d)
  else d.
Definition vdefs (l : definitions) : definitions := map (fun p => (fst p, view_def (snd p))) l.
Lemma vdefs_get l n : cget (vdefs l) n = option_map view_def (cget l n).
Proof. unfold cget, vdefs. induction l as [|[k d] l IH]; [reflexivity|]. cbn [map dget fst snd]. destruct (chars_eqb k n); [reflexivity|exact IH]. Qed.
Lemma vdefs_keys l : map fst (vdefs l) = map fst l.
Proof. unfold vdefs. rewrite map_map. reflexivity. Qed.
Lemma view_def_type d : d_type (view_def d) = d_type d. Proof. unfold view_def. destruct (is_float_type _); reflexivity. Qed.
Lemma view_def_name d : d_name (view_def d) = d_name d. Proof. unfold view_def. destruct (is_float_type _); reflexivity. Qed.

Lemma defs_in rel l p : defs_ok rel l = true -> In p l -> fst p = d_name (snd p) /\ def_ok rel (snd p) = true.
Proof.
  unfold defs_ok. intros H I. apply andb_true_iff in H. destruct H as [H _]. rewrite forallb_forall in H. specialize (H p I). apply andb_true_iff in H.
  destruct H as [H1 H2]. apply chars_eqb_eq in H1. auto.
Qed.
Lemma defs_nodup rel l : defs_ok rel l = true -> NoDup (map fst l).
Proof. unfold defs_ok. intros H. apply andb_true_iff in H. apply (nodup_by_spec _ cspec), H. Qed.
Lemma defs_get rel l n d : defs_ok rel l = true -> cget l n = Some d -> n = d_name d /\ def_ok rel d = true.
Proof. intros H G. apply (get_in _ cspec) in G. exact (defs_in _ _ _ H G). Qed.

(** ** Attributes *)
Definition retype (t : chars) (v : aval) : option aval :=
  if is_int_type t || chars_eqb t (txt "ENUM") then
    match v with
    | AInt z => Some (AInt z)
    | AStr s => if number_token s then option_map AInt (int_text s) else None
    | AFloat f => if f_finite f then option_map AInt (f_trunc (f_text f)) else None
    end
  else if is_float_type t then
    match v with
    | AFloat f => if f_finite f then Some (AFloat f) else None
    | AInt z => if small z then Some (AFloat (f_int z)) else None
    | AStr _ => None
    end
  else match v with AStr s => if plain_text s then Some (AStr s) else None | _ => None end.
Definition has_kind (k : option string) (a : attribute) : bool :=
  match k with Some k => match d_kind (a_def a) with Some k' => String.eqb k k' | None => false end | None => true end.
Definition attr_ok (defs : definitions) (k : option string) (x : chars * attribute) : bool :=
  chars_eqb (fst x) (d_name (a_def (snd x))) && has_kind k (snd x) &&
  match cget defs (fst x) with
  | Some d => Bool.eqb (type_is (a_def (snd x)) "STRING") (type_is d "STRING") && some (retype (d_type d) (a_value (snd x)))
  | None => false
  end.
Definition attrs_ok (defs : definitions) (k : option string) (a : attrs) : bool := forallb (attr_ok defs k) a && nodup_by chars_eqb (map fst a).
Definition view_attr (defs : definitions) (x : chars * attribute) : chars * attribute :=
  (fst x, match cget defs (fst x) with
          | Some d => match retype (d_type d) (a_value (snd x)) with Some v => Attr v (view_def d) | None => snd x end
          | None => snd x
          end).
Definition vattrs (defs : definitions) (a : attrs) : attrs := map (view_attr defs) a.
Lemma vattrs_keys defs a : map fst (vattrs defs a) = map fst a. Proof. unfold vattrs. rewrite map_map. reflexivity. Qed.

(** ** Objects *)
Definition comment_fits (c : option chars) : bool := opt_ok comment_ok c.
Definition pairs_ok (l : list (Z * chars)) : bool := forallb (fun p => plain_text (snd p)) l && nodup_by Z.eqb (map fst l).
Definition is_ok {A} (r : result A) : bool := match r with Ok _ => true | Err _ => false end.
Definition fit_signal (defs : definitions) (s : dsignal) : bool :=
  name_ok (s_name s) && num_ok (s_scale s) && num_ok (s_offset s) && opt_ok num_ok (s_min s) && opt_ok num_ok (s_max s) && opt_ok plain_text (s_unit s) &&
  forallb name_ok (s_receivers s) && comment_fits (s_comment s) && opt_ok (fun c => nonempty c && pairs_ok c) (s_choices s) &&
  (negb (s_float s) || (s_length s =? 32) || (s_length s =? 64)) && attrs_ok defs (Some "SG_") (signal_attrs s).
(** Multiplexing: with one multiplexer the multiplexed signals name it; with several they name any of them. *)
Definition the_mux (l : list dsignal) : option chars := match filter s_is_mux l with [s] => Some (s_name s) | _ => None end.
Definition fit_mux (l : list dsignal) (s : dsignal) : bool :=
  match s_mux_ids s with
  | None => negb (some (s_mux_signal s))
  | Some ids => nonempty ids && forallb (Z.leb 0) ids &&
                match s_mux_signal s with
                | Some n => name_ok n && match filter s_is_mux l with
                                         | [] => false
                                         | [u] => chars_eqb n (s_name u) && negb (s_is_mux s)
                                         | _ => true
                                         end
                | None => false
                end
  end.
Definition fit_message (defs : definitions) (m : dmessage) : bool :=
  name_ok (m_name m) && negb (chars_eqb (m_name m) (txt "VECTOR__INDEPENDENT_SIG_MSG")) && (0 <=? m_id m) && (m_id m <? 2 ^ 31) && (0 <=? m_length m) &&
  forallb name_ok (m_senders m) && comment_fits (m_comment m) && nodup_by chars_eqb (map s_name (m_signals m)) &&
  forallb (fit_signal defs) (m_signals m) && forallb (fit_mux (m_signals m)) (m_signals m) &&
  opt_ok (forallb (fun g => name_ok (g_name g))) (m_groups m) &&
  match message_attrs defs m with Ok a => attrs_ok defs (Some "BO_") a | Err _ => false end.
Definition fit_node (defs : definitions) (n : node) : bool := name_ok (n_name n) && comment_fits (n_comment n) && attrs_ok defs (Some "BU_") (n_attrs n).
Definition fit_envvar (defs : definitions) (e : envvar) : bool :=
  name_ok (e_name e) && num_ok (e_min e) && num_ok (e_max e) && num_ok (e_initial e) && comment_ok (e_unit e) && name_ok (e_access e) && name_ok (e_node e) &&
  comment_fits (e_comment e) && attrs_ok defs (Some "EV_") (e_attrs e).
Definition fit_table (t : chars * list (Z * chars)) : bool := name_ok (fst t) && pairs_ok (snd t).
Definition fit_rel (defs : definitions) (a : attrs) : bool := attrs_ok defs None a && nonempty a.
Definition fit_node_rels (defs : definitions) (l : list (chars * attrs)) : bool :=
  forallb (fun p => name_ok (fst p) && fit_rel defs (snd p)) l && nodup_by chars_eqb (map fst l) && nonempty l.
Definition fit_msg_rels (defs : definitions) (l : msg_relations) : bool := forallb (fun p => fit_node_rels defs (snd p)) l && nodup_by Z.eqb (map fst l).
Definition fit_frame_rels (defs : definitions) (l : list (chars * list (chars * attrs))) : bool :=
  forallb (fun p => name_ok (fst p) && fit_node_rels defs (snd p)) l && nodup_by chars_eqb (map fst l) && nonempty l.
Definition fit_sig_rels (defs : definitions) (l : sig_relations) : bool := forallb (fun p => fit_frame_rels defs (snd p)) l && nodup_by Z.eqb (map fst l).
Definition fit_attributes (defs : definitions) (db : database) : bool :=
  match database_attrs defs db with Ok a => attrs_ok defs None a | Err _ => false end.
Definition fit (db : database) : bool :=
  let defs := dump_definitions db in
  opt_ok plain_text (db_version db) && forallb (fit_node defs) (db_nodes db) && nodup_by chars_eqb (map n_name (db_nodes db)) &&
  forallb (fun b => opt_ok plain_text (b_comment b)) (db_buses db) && forallb (fit_message defs) (db_messages db) &&
  nodup_by Z.eqb (map frame (db_messages db)) && fit_attributes defs db && defs_ok false defs && defs_ok true (db_rel_definitions db) &&
  forallb (fun e => fit_envvar defs (snd e)) (db_envvars db) && nodup_by chars_eqb (map (fun e => e_name (snd e)) (db_envvars db)) &&
  forallb fit_table (db_tables db) && nodup_by chars_eqb (map fst (db_tables db)) && fit_sig_rels (db_rel_definitions db) (db_sig_rels db) &&
  fit_msg_rels (db_rel_definitions db) (db_msg_rels db).

(** ** The file *)
Definition val {A} (d : A) (r : result A) : A := match r with Ok a => a | Err _ => d end.
Definition mux_mark (s : dsignal) : option chars :=
  if s_is_mux s then Some ["M"%char] else match s_mux_ids s with Some (i :: _) => Some ("m"%char :: decimal i) | _ => None end.
Definition sg_of (s : dsignal) : sg_stmt :=
  SgStmt (s_name s) (mux_mark s) (decimal (s_start s)) (decimal (s_length s)) (if s_big s then decimal 0 else decimal 1)
    (if s_signed s then "-"%char else "+"%char) (num_text (s_scale s)) (num_text (s_offset s)) (or_zero_text (s_min s)) (or_zero_text (s_max s))
    (match s_unit s with Some u => u | None => [] end) (or_xxx (s_receivers s)).
Definition message_of (m : dmessage) : stmt :=
  SMessage (frame_text m) (m_name m) (decimal (m_length m)) (hd vector_xxx (m_senders m)) (map sg_of (dump_order (m_signals m))).
Definition types_of (m : dmessage) : list stmt :=
  flat_map (fun s => if s_float s then [SSigType (frame_text m) (s_name s) (decimal (if s_length s =? 32 then 1 else 2))] else []) (m_signals m).
Definition ranges_of (ids : list Z) : list (Z * Z) := val [] (create_mux_ranges ids).
Definition muxes_of (m : dmessage) : list stmt :=
  flat_map (fun s => match s_mux_ids s with
                     | None | Some [] => []
                     | Some ids => [SMux (frame_text m) (s_name s) (match s_mux_signal s with Some n => n | None => txt "None" end)
                                      (map (fun p => (decimal (fst p), "-"%char :: decimal (snd p))) (ranges_of ids))]
                     end) (m_signals m).
(** The objects with the attributes that are written for them *)
Definition msg_attrs (defs : definitions) (m : dmessage) : attrs := val [] (message_attrs defs m).
Definition msg_objects (defs : definitions) (m : dmessage) : list (okey * attrs) :=
  (KMsg (frame m), msg_attrs defs m) :: map (fun s => (KSig (frame m) (s_name s), signal_attrs s)) (dump_order (m_signals m)).
Definition objects (db : database) : list (okey * attrs) :=
  let defs := dump_definitions db in
  (KDb, val [] (database_attrs defs db)) :: map (fun e => (KEnv (e_name (snd e)), e_attrs (snd e))) (db_envvars db) ++
  map (fun n => (KNode (n_name n), n_attrs n)) (db_nodes db) ++ flat_map (msg_objects defs) (db_messages db).
Definition key_target (k : okey) : list target :=
  match k with
  | KDb => []
  | KNode n => [("BU_", None, Some n)]
  | KEnv n => [("EV_", None, Some n)]
  | KMsg z => [("BO_", Some (decimal z), None)]
  | KSig z n => [("SG_", Some (decimal z), Some n)]
  end.
Definition object_stmts (p : okey * attrs) : list stmt := map (fun x => SAttr (fst x) (key_target (fst p)) (attr_value (snd x))) (snd p).
Definition the_file (db : database) : dbc_file :=
  let defs := dump_definitions db in
  DbcFile (match db_version db with Some v => v | None => [] end) (map n_name (db_nodes db)) (map table_stmt (db_tables db)) (map message_of (db_messages db))
        (flat_map senders_stmts (db_messages db)) (map envvar_stmt (db_envvars db)) (comment_stmts db)
        (definition_stmts SDef defs) (definition_stmts SRelDef (db_rel_definitions db)) (default_stmts SDefault defs)
        (default_stmts SRelDefault (db_rel_definitions db)) (flat_map object_stmts (objects db)) (rel_stmts db) (flat_map choice_stmts (db_messages db))
        (flat_map types_of (db_messages db)) (flat_map group_stmts (db_messages db))
        (if extended_mux (db_messages db) then flat_map muxes_of (db_messages db) else []).
End Fit.
