(** DbcWrite: a database that fits is written, and the text is a DBC file that is read as the statements. *)
From Coq Require Import Ascii Permutation.
From Verif Require Import Base CSource CNames DictLemmas Regex DecText DbcNames Prop_DbcNames DbcToken DbcLex DbcStmt DbcPieces DbcParse DbcGrammar DbcDump DbcLoad DbcTables DbcFit.
Local Open Scope string_scope.
Local Open Scope Z_scope.
Local Open Scope list_scope.

Lemma mapM_all {A B} (f : A -> result B) (g : A -> B) l : (forall x, In x l -> f x = Ok (g x)) -> mapM f l = Ok (map g l).
Proof. induction l as [|x l IH]; intros H; [reflexivity|]. cbn [mapM map]. rewrite H by (left; reflexivity). cbn [bind]. rewrite IH; [reflexivity|]. intros y I. apply H. right. exact I. Qed.
Lemma concat_map {A B} (f : A -> list B) l : List.concat (map f l) = flat_map f l.
Proof. induction l as [|x l IH]; [reflexivity|]. cbn [map List.concat flat_map]. rewrite IH. reflexivity. Qed.
Lemma flat_map_ext_in {A B} (f g : A -> list B) l : (forall x, In x l -> f x = g x) -> flat_map f l = flat_map g l.
Proof. induction l as [|x l IH]; intros H; [reflexivity|]. cbn [flat_map]. rewrite H by (left; reflexivity). rewrite IH; [reflexivity|]. intros y I. apply H. right. exact I. Qed.
Lemma flat_map_flat {A B C} (f : B -> list C) (g : A -> list B) l : flat_map f (flat_map g l) = flat_map (fun x => flat_map f (g x)) l.
Proof. induction l as [|x l IH]; [reflexivity|]. cbn [flat_map]. rewrite flat_map_app, IH. reflexivity. Qed.
Lemma forallb_flat {A B} (p : B -> bool) (f : A -> list B) l : (forall x, In x l -> forallb p (f x) = true) -> forallb p (flat_map f l) = true.
Proof. induction l as [|x l IH]; intros H; [reflexivity|]. cbn [flat_map]. rewrite forallb_app, H, IH; [reflexivity| |left; reflexivity]. intros y I. apply H. right. exact I. Qed.
Lemma forallb_each {A B} (p : B -> bool) (f : A -> B) l : (forall x, In x l -> p (f x) = true) -> forallb p (map f l) = true.
Proof. intros H. rewrite forallb_forall. intros y I. apply in_map_iff in I. destruct I as (x & <- & I). apply H, I. Qed.
Lemma dump_order_in {FL : Floats} l s : In s (dump_order l) <-> In s l.
Proof. unfold dump_order, sort_signals. rewrite <- in_rev. split; apply Permutation_in; [|apply Permutation_sym]; apply sorted_py_perm. Qed.
Lemma descending_in l p : In p (descending l) <-> In p l.
Proof. unfold descending. rewrite <- in_rev. split; apply Permutation_in; [|apply Permutation_sym]; apply sorted_py_perm. Qed.

Ltac splitg := repeat match goal with |- andb _ _ = true => apply andb_true_iff; split end.
Section Write.
Context {FL : Floats} {LW : FloatLaws FL}.
Implicit Types (db : database) (m : dmessage) (s : dsignal) (defs : definitions).

(** ** The statements *)
Lemma ids_nonempty l s : fit_mux l s = true -> s_mux_ids s <> Some [].
Proof. unfold fit_mux. intros H E. rewrite E in H. discriminate H. Qed.
Lemma mux_text_ok l s : fit_mux l s = true -> mux_text s = Ok (mux_mark s).
Proof. intros H. apply ids_nonempty in H. unfold mux_text, mux_mark. destruct (s_is_mux s); [reflexivity|]. destruct (s_mux_ids s) as [[|i r]|]; [contradiction|reflexivity|reflexivity]. Qed.
Lemma signal_stmt_ok l s : fit_mux l s = true -> signal_stmt s = Ok (sg_of s).
Proof. intros H. unfold signal_stmt. rewrite (mux_text_ok l) by exact H. reflexivity. Qed.
Lemma fit_message_muxes defs m s : fit_message defs m = true -> In s (m_signals m) -> fit_mux (m_signals m) s = true.
Proof. unfold fit_message. intros H I. splitb. match goal with H : forallb (fit_mux _) _ = true |- _ => rewrite forallb_forall in H; apply H, I end. Qed.
Lemma fit_message_signal defs m s : fit_message defs m = true -> In s (m_signals m) -> fit_signal defs s = true.
Proof. unfold fit_message. intros H I. splitb. match goal with H : forallb (fit_signal _) _ = true |- _ => rewrite forallb_forall in H; apply H, I end. Qed.
Lemma message_stmt_ok defs m : fit_message defs m = true -> message_stmt m = Ok (message_of m).
Proof.
  intros H. unfold message_stmt. rewrite (mapM_all _ sg_of); [reflexivity|]. intros s I. rewrite dump_order_in in I.
  apply (signal_stmt_ok (m_signals m)), (fit_message_muxes defs); assumption.
Qed.
Lemma type_stmts_ok defs m : fit_message defs m = true -> type_stmts m = Ok (types_of m).
Proof.
  intros H. unfold type_stmts.
  rewrite (mapM_all _ (fun s => if s_float s then [SSigType (frame_text m) (s_name s) (decimal (if s_length s =? 32 then 1 else 2))] else [])).
  - cbn [bind]. rewrite concat_map. reflexivity.
  - intros s I. apply (fit_message_signal defs m) in I; [|exact H]. unfold fit_signal in I. splitb. destruct (s_float s); [|reflexivity].
    destruct (s_length s =? 32); [reflexivity|]. destruct (s_length s =? 64); [reflexivity|]. discriminate.
Qed.
Lemma ranges_ok ids : ids <> [] -> create_mux_ranges ids = Ok (ranges_of ids).
Proof. intros H. unfold ranges_of. destruct (C46_same_ids ids H) as (rs & E & _). rewrite E. reflexivity. Qed.
Lemma mux_stmts_ok m : mux_stmts m = Ok (muxes_of m).
Proof.
  unfold mux_stmts. rewrite (mapM_all _ (fun s => match s_mux_ids s with
                     | None | Some [] => []
                     | Some ids => [SMux (frame_text m) (s_name s) (match s_mux_signal s with Some n => n | None => txt "None" end)
                                      (map (fun p => (decimal (fst p), "-"%char :: decimal (snd p))) (ranges_of ids))]
                     end)).
  - cbn [bind]. rewrite concat_map. reflexivity.
  - intros s _. destruct (s_mux_ids s) as [[|i r]|]; [reflexivity| |reflexivity]. rewrite ranges_ok by discriminate. reflexivity.
Qed.
Lemma attr_stmts_ok defs k a (t : attribute -> list target) key : attrs_ok defs k a = true ->
  (forall x, has_kind k x = true -> t x = key_target key) -> map (attr_stmt t) a = object_stmts (key, a).
Proof.
  intros H T. unfold object_stmts. cbn [fst snd]. apply map_ext_in. intros x I. unfold attrs_ok in H. apply andb_true_iff in H. destruct H as [H _].
  rewrite forallb_forall in H. specialize (H x I). unfold attr_ok in H. splitb. unfold attr_stmt. rewrite T by assumption.
  match goal with H : chars_eqb _ _ = true |- _ => apply chars_eqb_eq in H; rewrite <- H end. reflexivity.
Qed.
Lemma kind_is k a : has_kind (Some k) a = true -> kind_of a = k.
Proof. unfold has_kind, kind_of. destruct (d_kind (a_def a)); [|discriminate]. intros H. apply String.eqb_eq in H. congruence. Qed.
Lemma fit_message_attrs defs m : fit_message defs m = true -> message_attrs defs m = Ok (msg_attrs defs m) /\ attrs_ok defs (Some "BO_") (msg_attrs defs m) = true.
Proof. unfold fit_message. intros H. splitb. unfold msg_attrs. destruct (message_attrs defs m); [|discriminate]. split; [reflexivity|assumption]. Qed.
Lemma fit_signal_attrs defs s : fit_signal defs s = true -> attrs_ok defs (Some "SG_") (signal_attrs s) = true.
Proof. unfold fit_signal. intros H. splitb. assumption. Qed.

Record fits db : Prop := {
  f_version : opt_ok plain_text (db_version db) = true;
  f_nodes : forall n, In n (db_nodes db) -> fit_node (dump_definitions db) n = true;
  f_node_names : NoDup (map n_name (db_nodes db));
  f_buses : forall b, In b (db_buses db) -> opt_ok plain_text (b_comment b) = true;
  f_messages : forall m, In m (db_messages db) -> fit_message (dump_definitions db) m = true;
  f_frames : NoDup (map frame (db_messages db));
  f_attrs : database_attrs (dump_definitions db) db = Ok (val [] (database_attrs (dump_definitions db) db));
  f_attrs_ok : attrs_ok (dump_definitions db) None (val [] (database_attrs (dump_definitions db) db)) = true;
  f_defs : defs_ok false (dump_definitions db) = true;
  f_rdefs : defs_ok true (db_rel_definitions db) = true;
  f_envvars : forall e, In e (db_envvars db) -> fit_envvar (dump_definitions db) (snd e) = true;
  f_env_names : NoDup (map (fun e => e_name (snd e)) (db_envvars db));
  f_tables : forall t, In t (db_tables db) -> fit_table t = true;
  f_table_names : NoDup (map fst (db_tables db));
  f_sig_rels : fit_sig_rels (db_rel_definitions db) (db_sig_rels db) = true;
  f_msg_rels : fit_msg_rels (db_rel_definitions db) (db_msg_rels db) = true }.
Lemma fit_fits db : fit db = true -> fits db.
Proof.
  unfold fit. intros H. splitb. repeat match goal with H : forallb _ _ = true |- _ => rewrite forallb_forall in H end.
  match goal with H : fit_attributes _ _ = true |- _ => unfold fit_attributes in H; destruct (database_attrs (dump_definitions db) db) eqn:EA; [|discriminate H] end.
  constructor; try assumption; try (apply (nodup_by_spec _ cspec); assumption); try (apply (nodup_by_spec _ zspec); assumption); rewrite EA; [reflexivity|assumption].
Qed.

Lemma attribute_stmts_ok db : fits db -> attribute_stmts (dump_definitions db) db = Ok (flat_map object_stmts (objects db)).
Proof.
  intros H. unfold attribute_stmts, objects. pose proof (f_attrs _ H) as E0. pose proof (f_attrs_ok _ H) as E1. set (defs := dump_definitions db) in *.
  destruct (database_attrs defs db) as [da|] eqn:EA; [|discriminate E0]. cbn [bind val] in *.
  rewrite (mapM_all _ (fun m => flat_map object_stmts (msg_objects defs m))).
  - cbn [bind]. f_equal. cbn [flat_map]. rewrite !flat_map_app, concat_map, flat_map_flat. f_equal.
    { apply (attr_stmts_ok defs None); [exact E1|reflexivity]. }
    f_equal; [|f_equal].
    + rewrite flat_map_map. apply flat_map_ext_in. intros e I. apply (f_envvars _ H) in I. unfold fit_envvar in I. splitb.
      apply (attr_stmts_ok defs (Some "EV_")); [assumption|]. intros a K. rewrite (kind_is _ _ K). reflexivity.
    + rewrite flat_map_map. apply flat_map_ext_in. intros e I. apply (f_nodes _ H) in I. unfold fit_node in I. splitb.
      apply (attr_stmts_ok defs (Some "BU_")); [assumption|]. intros a K. rewrite (kind_is _ _ K). reflexivity.
  - intros m I. apply (f_messages _ H) in I. fold defs in I. destruct (fit_message_attrs defs m I) as [E A]. rewrite E. cbn [bind]. f_equal.
    unfold msg_objects. cbn [flat_map]. f_equal.
    + apply (attr_stmts_ok defs (Some "BO_")); [assumption|]. intros a K. rewrite (kind_is _ _ K). reflexivity.
    + rewrite flat_map_map. apply flat_map_ext_in. intros s J. rewrite dump_order_in in J. apply (fit_message_signal defs m) in J; [|exact I]. apply fit_signal_attrs in J.
      apply (attr_stmts_ok defs (Some "SG_")); [assumption|]. intros a K. rewrite (kind_is _ _ K). reflexivity.
Qed.
Theorem dump_file_ok db : fit db = true -> dump_file db = Ok (the_file db).
Proof.
  intros H. apply fit_fits in H. unfold dump_file, the_file.
  rewrite (mapM_all _ message_of) by (intros m I; eapply message_stmt_ok, f_messages; eassumption). cbn [bind].
  rewrite (mapM_all _ types_of) by (intros m I; eapply type_stmts_ok, f_messages; eassumption). cbn [bind].
  rewrite attribute_stmts_ok by exact H. cbn [bind].
  rewrite (mapM_all mux_stmts muxes_of) by (intros m _; apply mux_stmts_ok).
  destruct (extended_mux (db_messages db)); cbn [bind]; rewrite ?concat_map; reflexivity.
Qed.

(** ** The text of the file is read as its statements *)
Lemma xxx_ok : name_ok vector_xxx = true. Proof. vm_compute. reflexivity. Qed.
Lemma number_dash z : 0 <= z -> number_token ("-"%char :: decimal z) = true.
Proof.
  intros H. destruct (Z.eq_dec z 0) as [->|N]; [vm_compute; reflexivity|].
  assert (E : "-"%char :: decimal z = decimal (- z)). { rewrite (decimal_neg (- z)) by lia. rewrite Z.opp_involutive. reflexivity. }
  rewrite E. apply number_decimal.
Qed.
Lemma mark_ok i : 0 <= i -> name_ok ("m"%char :: decimal i) = true.
Proof.
  intros H. unfold name_ok. apply andb_true_iff. split.
  - unfold word_text. cbn [forallb]. change (name_start "m") with true. change (is_word "m") with true. cbn [andb].
    pose proof (decimal_digits i H) as D. rewrite forallb_forall in *. intros c I. apply D in I. unfold is_word. rewrite I. rewrite ?orb_true_r. reflexivity.
  - apply negb_true_iff. unfold is_keyword. cbn [string_of_list_ascii]. generalize (string_of_list_ascii (decimal i)). intros x. reflexivity.
Qed.
Lemma hd_ok l : forallb name_ok l = true -> name_ok (hd vector_xxx l) = true.
Proof. destruct l as [|x l]; [intros _; exact xxx_ok|]. cbn [forallb hd]. intros H. apply andb_true_iff in H. apply H. Qed.
Lemma or_zero_ok n : opt_ok num_ok n = true -> number_token (or_zero_text n) = true.
Proof. destruct n; cbn [opt_ok or_zero_text]; intros H; [apply num_token, H|apply number_decimal]. Qed.
Lemma sg_of_ok defs l s : fit_signal defs s = true -> fit_mux l s = true -> sg_ok (sg_of s) = true.
Proof.
  intros H M. unfold fit_signal in H. splitb. unfold sg_ok, sg_of. cbn [ss_name ss_mux ss_start ss_length ss_order ss_sign ss_scale ss_offset ss_min ss_max ss_unit ss_receivers].
  rewrite !number_decimal. splitg; try assumption; try reflexivity; try (apply num_token; assumption); try (apply or_zero_ok; assumption).
  - unfold mux_mark, fit_mux in *. destruct (s_is_mux s); [vm_compute; reflexivity|]. destruct (s_mux_ids s) as [[|i r]|]; [reflexivity| |reflexivity].
    cbn [opt_ok]. apply mark_ok. splitb. cbn [forallb] in *. splitb. match goal with H : (0 <=? i) = true |- _ => apply Z.leb_le in H; exact H end.
  - destruct (s_big s); apply number_decimal.
  - destruct (s_signed s); reflexivity.
  - destruct (s_unit s); [assumption|reflexivity].
  - destruct (s_receivers s); reflexivity.
  - destruct (s_receivers s); [cbn [or_xxx forallb]; rewrite xxx_ok; reflexivity|assumption].
Qed.
Lemma message_of_ok defs m : fit_message defs m = true -> stmt_ok (message_of m) = true.
Proof.
  intros H. pose proof H as H'. unfold fit_message in H. splitb. unfold message_of. cbn [stmt_ok]. unfold frame_text. rewrite !number_decimal.
  splitg; try assumption; try reflexivity; [apply hd_ok; assumption|].
  apply forallb_each. intros s I. rewrite dump_order_in in I. apply (sg_of_ok defs (m_signals m)); [eapply fit_message_signal|eapply fit_message_muxes]; eassumption.
Qed.
Lemma value_ok_num n : num_ok n = true -> value_ok (VNumber (num_text n)) = true.
Proof. apply num_token. Qed.
Lemma def_texts_ok rel d : def_ok rel d = true -> name_ok (d_type d) = true /\ values_ok (d_type d) (def_texts d) = true.
Proof.
  unfold def_ok, known_type, type_is. intros H. splitb.
  assert (T : In (d_type d) [txt "ENUM"; txt "INT"; txt "FLOAT"; txt "HEX"; txt "STRING"]).
  { repeat match goal with H : orb _ _ = true |- _ => apply orb_true_iff in H; destruct H end;
      match goal with H : chars_eqb (d_type d) _ = true |- _ => apply chars_eqb_eq in H; rewrite H; cbn [In]; tauto end. }
  unfold def_texts, type_is, bounds_ok, bound_ok, choices_ok in *.
  assert (B : forall l, forallb (fun n => num_ok n) l = true -> forallb value_ok (map (fun n => VNumber (num_text n)) l) = true /\
              forallb (fun v => negb (is_string v)) (map (fun n => VNumber (num_text n)) l) = true).
  { intros l HL. split; apply forallb_each; intros x I; [|reflexivity]. rewrite forallb_forall in HL. apply value_ok_num, HL, I. }
  destruct T as [T|[T|[T|[T|[T|[]]]]]]; rewrite <- T in *; (split; [vm_compute; reflexivity|]); unfold values_ok.
  - change (chars_eqb (txt "ENUM") (txt "ENUM")) with true in *. cbn iota in *. apply andb_true_iff; split; apply forallb_each; intros x I; [|reflexivity].
    match goal with H : forallb plain_text _ = true |- _ => rewrite forallb_forall in H; apply H, I end.
  - change (chars_eqb (txt "INT") (txt "ENUM")) with false in *. change (chars_eqb (txt "INT") (txt "STRING")) with false in *. cbn iota in *.
    apply andb_true_iff. apply B. destruct (d_min d) as [[?|?]|], (d_max d) as [[?|?]|]; cbn in *; try reflexivity; try discriminate.
  - change (chars_eqb (txt "FLOAT") (txt "ENUM")) with false in *. change (chars_eqb (txt "FLOAT") (txt "STRING")) with false in *. cbn iota in *.
    apply andb_true_iff. apply B. change (is_int_type (txt "FLOAT")) with false in *. change (is_float_type (txt "FLOAT")) with true in *. cbn [andb] in *.
    destruct (d_min d) as [a|], (d_max d) as [b|]; try discriminate; try reflexivity. splitb.
    cbn [opt_list app forallb]. rewrite !real_num by assumption. reflexivity.
  - change (chars_eqb (txt "HEX") (txt "ENUM")) with false in *. change (chars_eqb (txt "HEX") (txt "STRING")) with false in *. cbn iota in *.
    apply andb_true_iff. apply B. destruct (d_min d) as [[?|?]|], (d_max d) as [[?|?]|]; cbn in *; try reflexivity; try discriminate.
  - reflexivity.
Qed.
Lemma definition_stmts_ok rel l : defs_ok rel l = true ->
  forallb body_stmt (definition_stmts (if rel then SRelDef else SDef) l) = true.
Proof.
  intros H. unfold definition_stmts. apply forallb_flat. intros p I. destruct (defs_in _ _ _ H I) as [_ O].
  destruct (def_texts_ok _ _ O) as [N V]. unfold def_ok in O. splitb. destruct (known_type (snd p)); [|reflexivity].
  cbn [forallb]. rewrite andb_true_r. destruct rel; cbn [body_stmt stmt_ok kind_fits] in *;
  splitg; assumption.
Qed.
Lemma type_cases rel d : def_ok rel d = true -> In (d_type d) [txt "ENUM"; txt "INT"; txt "FLOAT"; txt "HEX"; txt "STRING"].
Proof.
  unfold def_ok, known_type, type_is. intros H. splitb.
  repeat match goal with H : orb _ _ = true |- _ => apply orb_true_iff in H; destruct H end;
    match goal with H : chars_eqb (d_type d) _ = true |- _ => apply chars_eqb_eq in H; rewrite H; cbn [In]; tauto end.
Qed.
Lemma default_stmts_ok rel l : defs_ok rel l = true ->
  forallb body_stmt (default_stmts (if rel then SRelDefault else SDefault) l) = true.
Proof.
  intros H. unfold default_stmts. apply forallb_flat. intros p I. destruct (defs_in _ _ _ H I) as [_ O].
  pose proof (type_cases _ _ O) as T. unfold def_ok in O. splitb. destruct (d_default (snd p)) as [v|]; [|reflexivity].
  cbn [forallb opt_ok] in *. rewrite andb_true_r.
  assert (V : value_ok (if type_is (snd p) "STRING" || type_is (snd p) "ENUM" then VString (aval_text v) else VNumber (aval_text v)) = true).
  { unfold type_is, default_ok in *. destruct T as [T|[T|[T|[T|[T|[]]]]]]; rewrite <- T in *.
    - change (chars_eqb (txt "ENUM") (txt "ENUM")) with true. rewrite orb_true_r. destruct v; [discriminate..|assumption].
    - change (chars_eqb (txt "INT") (txt "STRING")) with false. change (chars_eqb (txt "INT") (txt "ENUM")) with false. cbn [orb].
      destruct v; [apply number_decimal|discriminate..].
    - change (chars_eqb (txt "FLOAT") (txt "STRING")) with false. change (chars_eqb (txt "FLOAT") (txt "ENUM")) with false. cbn [orb].
      destruct v; [apply number_decimal|apply finite_text; assumption|discriminate].
    - change (chars_eqb (txt "HEX") (txt "STRING")) with false. change (chars_eqb (txt "HEX") (txt "ENUM")) with false. cbn [orb].
      destruct v; [apply number_decimal|discriminate..].
    - change (chars_eqb (txt "STRING") (txt "STRING")) with true. cbn [orb]. destruct v; [discriminate..|assumption]. }
  destruct rel; cbn [body_stmt stmt_ok]; apply andb_true_iff; split; assumption.
Qed.
(** What is written for an attribute *)
Lemma attr_written rel defs k x : defs_ok rel defs = true -> attr_ok defs k x = true -> plain_text (fst x) = true /\ value_ok (attr_value (snd x)) = true.
Proof.
  intros D H. unfold attr_ok in H. splitb. destruct (cget defs (fst x)) as [d|] eqn:G; [|discriminate]. splitb.
  destruct (defs_get _ _ _ _ D G) as [N O]. pose proof (type_cases _ _ O) as T. unfold def_ok in O. splitb. split; [rewrite N; assumption|].
  unfold attr_value, quoted_kind. match goal with H : Bool.eqb _ _ = true |- _ => apply Bool.eqb_prop in H; rewrite H end.
  unfold type_is, retype in *. destruct T as [T|[T|[T|[T|[T|[]]]]]]; rewrite <- T in *.
  - change (chars_eqb (txt "ENUM") (txt "STRING")) with false. change (chars_eqb (txt "ENUM") (txt "ENUM")) with true in *. rewrite orb_true_r in *. cbn iota in *.
    destruct (a_value (snd x)) as [z|f|t]; cbn [aval_text value_ok]; [apply number_decimal|destruct (f_finite f) eqn:E; [apply finite_text, E|discriminate]|].
    destruct (number_token t); [reflexivity|discriminate].
  - change (chars_eqb (txt "INT") (txt "STRING")) with false. change (is_int_type (txt "INT")) with true in *. cbn [orb] in *. cbn iota in *.
    destruct (a_value (snd x)) as [z|f|t]; cbn [aval_text value_ok]; [apply number_decimal|destruct (f_finite f) eqn:E; [apply finite_text, E|discriminate]|].
    destruct (number_token t); [reflexivity|discriminate].
  - change (chars_eqb (txt "FLOAT") (txt "STRING")) with false. change (is_int_type (txt "FLOAT")) with false in *. change (chars_eqb (txt "FLOAT") (txt "ENUM")) with false in *.
    change (is_float_type (txt "FLOAT")) with true in *. cbn [orb] in *. cbn iota in *.
    destruct (a_value (snd x)) as [z|f|t]; cbn [aval_text value_ok]; [apply number_decimal|destruct (f_finite f) eqn:E; [apply finite_text, E|discriminate]|discriminate].
  - change (chars_eqb (txt "HEX") (txt "STRING")) with false. change (is_int_type (txt "HEX")) with true in *. cbn [orb] in *. cbn iota in *.
    destruct (a_value (snd x)) as [z|f|t]; cbn [aval_text value_ok]; [apply number_decimal|destruct (f_finite f) eqn:E; [apply finite_text, E|discriminate]|].
    destruct (number_token t); [reflexivity|discriminate].
  - change (chars_eqb (txt "STRING") (txt "STRING")) with true. change (is_int_type (txt "STRING")) with false in *. change (chars_eqb (txt "STRING") (txt "ENUM")) with false in *.
    change (is_float_type (txt "STRING")) with false in *. cbn [orb] in *. cbn iota in *. destruct (a_value (snd x)) as [z|f|t]; cbn [aval_text value_ok]; [discriminate..|].
    destruct (plain_text t); [reflexivity|discriminate].
Qed.
Lemma attrs_in defs k a x : attrs_ok defs k a = true -> In x a -> attr_ok defs k x = true.
Proof. unfold attrs_ok. intros H I. splitb. match goal with H : forallb _ _ = true |- _ => rewrite forallb_forall in H; apply H, I end. Qed.
Lemma attrs_nodup defs k a : attrs_ok defs k a = true -> NoDup (map fst a).
Proof. unfold attrs_ok. intros H. splitb. apply (nodup_by_spec _ cspec). assumption. Qed.
Lemma object_stmts_ok defs k o : defs_ok false defs = true -> attrs_ok defs k (snd o) = true -> forallb target_ok (key_target (fst o)) = true ->
  forallb body_stmt (object_stmts o) = true.
Proof.
  intros D A T. unfold object_stmts. apply forallb_each. intros x I. destruct (attr_written _ _ _ _ D (attrs_in _ _ _ _ A I)) as [P V].
  cbn [body_stmt stmt_ok]. rewrite P, T, V. reflexivity.
Qed.
(** The objects of a database that fits *)
Definition kind_of_key (k : okey) : option string :=
  match k with KDb => None | KNode _ => Some "BU_" | KEnv _ => Some "EV_" | KMsg _ => Some "BO_" | KSig _ _ => Some "SG_" end.
Lemma objects_in db o : fits db -> In o (objects db) ->
  attrs_ok (dump_definitions db) (kind_of_key (fst o)) (snd o) = true /\ forallb target_ok (key_target (fst o)) = true.
Proof.
  intros H I. unfold objects in I. set (defs := dump_definitions db) in *. destruct I as [<-|I]; [split; [exact (f_attrs_ok _ H)|reflexivity]|].
  apply in_app_iff in I. destruct I as [I|I]; [|apply in_app_iff in I; destruct I as [I|I]].
  - apply in_map_iff in I. destruct I as (e & <- & I). apply (f_envvars _ H) in I. unfold fit_envvar in I. splitb. cbn [fst snd kind_of_key key_target].
    split; [assumption|]. cbn. rewrite andb_true_r. assumption.
  - apply in_map_iff in I. destruct I as (e & <- & I). apply (f_nodes _ H) in I. unfold fit_node in I. splitb. cbn [fst snd kind_of_key key_target].
    split; [assumption|]. cbn. rewrite andb_true_r. assumption.
  - apply in_flat_map in I. destruct I as (m & I & J). apply (f_messages _ H) in I. fold defs in I. destruct (fit_message_attrs defs m I) as [E A].
    destruct J as [<-|J].
    + cbn [fst snd kind_of_key key_target]. split; [exact A|]. cbn [forallb target_ok]. rewrite number_decimal. reflexivity.
    + apply in_map_iff in J. destruct J as (s & <- & J). rewrite dump_order_in in J. apply (fit_message_signal defs m) in J; [|exact I].
      cbn [fst snd kind_of_key key_target]. split; [apply fit_signal_attrs, J|]. cbn [forallb target_ok]. rewrite number_decimal. unfold fit_signal in J. splitb.
      cbn [andb String.eqb Ascii.eqb Bool.eqb]. rewrite andb_true_r. assumption.
Qed.
Lemma choice_texts_ok l : forallb (fun p => plain_text (snd p)) l = true -> forallb pair_ok (choice_texts l) = true.
Proof.
  intros H. unfold choice_texts. apply forallb_each. intros p I. unfold pair_ok. cbn [fst snd]. rewrite number_decimal. rewrite forallb_forall in H. apply H, I.
Qed.
Lemma comment_stmt_ok t c : target_ok t = true -> comment_fits c = true -> forallb body_stmt (comment_stmt (Some t) c) = true.
Proof. intros T C. destruct c; [|reflexivity]. cbn [comment_stmt forallb body_stmt stmt_ok]. rewrite T. cbn [andb]. rewrite andb_true_r. exact C. Qed.
Lemma comment_stmts_ok db : fits db -> forallb body_stmt (comment_stmts db) = true.
Proof.
  intros H. unfold comment_stmts. rewrite !forallb_app. splitg; apply forallb_flat; intros x I.
  - apply (f_buses _ H) in I. unfold bus_comment, comment_stmt. destruct (b_comment x); [|reflexivity]. cbn [forallb body_stmt stmt_ok]. rewrite andb_true_r. exact I.
  - apply (f_nodes _ H) in I. unfold fit_node in I. splitb. apply comment_stmt_ok; assumption.
  - apply (f_messages _ H) in I. pose proof I as F. unfold fit_message in I. splitb. unfold message_comment. rewrite forallb_app. apply andb_true_iff. split.
    + apply comment_stmt_ok; [cbn [target_ok]; unfold frame_text; rewrite number_decimal; reflexivity|assumption].
    + apply forallb_flat. intros s J. rewrite dump_order_in in J. eapply fit_message_signal in J; [|exact F]. unfold fit_signal in J. splitb.
      apply comment_stmt_ok; [cbn [target_ok]; unfold frame_text; rewrite number_decimal; assumption|assumption].
  - apply (f_envvars _ H) in I. unfold fit_envvar in I. splitb. apply comment_stmt_ok; assumption.
Qed.
Lemma rel_attr_written defs a x : defs_ok true defs = true -> fit_rel defs a = true -> In x a ->
  fst x = d_name (a_def (snd x)) /\ plain_text (fst x) = true /\ value_ok (attr_value (snd x)) = true.
Proof.
  intros D H I. unfold fit_rel in H. splitb. match goal with H : attrs_ok _ _ _ = true |- _ => pose proof (attrs_in _ _ _ _ H I) as A end.
  split; [|exact (attr_written _ _ _ _ D A)]. unfold attr_ok in A. splitb. apply chars_eqb_eq. assumption.
Qed.
Lemma node_rels_in defs (l : list (chars * attrs)) p : fit_node_rels defs l = true -> In p l -> name_ok (fst p) = true /\ fit_rel defs (snd p) = true.
Proof. unfold fit_node_rels. intros H I. splitb. match goal with H : forallb _ _ = true |- _ => rewrite forallb_forall in H; specialize (H p I) end. splitb. auto. Qed.
Lemma frame_rels_in defs (l : list (chars * list (chars * attrs))) p : fit_frame_rels defs l = true -> In p l -> name_ok (fst p) = true /\ fit_node_rels defs (snd p) = true.
Proof. unfold fit_frame_rels. intros H I. splitb. match goal with H : forallb _ _ = true |- _ => rewrite forallb_forall in H; specialize (H p I) end. splitb. auto. Qed.
Lemma rel_stmts_ok db : fits db -> forallb body_stmt (rel_stmts db) = true.
Proof.
  intros H. pose proof (f_rdefs _ H) as D. pose proof (f_sig_rels _ H) as HS. pose proof (f_msg_rels _ H) as HM. unfold fit_sig_rels in HS. unfold fit_msg_rels in HM. splitb.
  unfold rel_stmts. rewrite forallb_app. apply andb_true_iff. split; apply forallb_flat; intros f I.
  - match goal with H : forallb (fun p => fit_frame_rels _ _) _ = true |- _ => rewrite forallb_forall in H; specialize (H f I); rename H into F end.
    apply forallb_flat. intros s J. destruct (frame_rels_in _ _ _ F J) as [N1 F1]. apply forallb_flat. intros n K. destruct (node_rels_in _ _ _ F1 K) as [N2 F2].
    apply forallb_each. intros a L. destruct (rel_attr_written _ _ _ D F2 L) as (E & P & V). cbn [body_stmt stmt_ok]. rewrite <- E, number_decimal. splitg; assumption || reflexivity.
  - match goal with H : forallb (fun p => fit_node_rels _ _) _ = true |- _ => rewrite forallb_forall in H; specialize (H f I); rename H into F end.
    apply forallb_flat. intros n K. destruct (node_rels_in _ _ _ F K) as [N2 F2].
    apply forallb_each. intros a L. destruct (rel_attr_written _ _ _ D F2 L) as (E & P & V). cbn [body_stmt stmt_ok]. rewrite <- E, number_decimal. splitg; assumption || reflexivity.
Qed.
Lemma chars_in_iff x (l : list chars) : chars_in x l = true <-> In x l.
Proof.
  unfold chars_in. rewrite existsb_exists. split; [intros (y & I & E); apply chars_eqb_eq in E; congruence|]. intros I. exists x. split; [exact I|apply chars_eqb_refl].
Qed.
Theorem the_file_ok db : fit db = true -> file_ok (the_file db) = true.
Proof.
  intros H. apply fit_fits in H. unfold file_ok. apply andb_true_iff. split; [apply andb_true_iff; split|].
  - cbn [the_file df_version]. pose proof (f_version _ H) as V. destruct (db_version db); [exact V|reflexivity].
  - cbn [the_file df_nodes]. apply forallb_each. intros n I. apply (f_nodes _ H) in I. unfold fit_node in I. splitb. assumption.
  - unfold file_body. cbn [the_file df_tables df_messages df_senders df_envvars df_comments df_definitions df_rel_definitions df_defaults df_rel_defaults df_attributes
      df_rel_attributes df_choices df_types df_groups df_muxes].
    rewrite !forallb_app. splitg.
    + apply forallb_each. intros t I. apply (f_tables _ H) in I. unfold fit_table, pairs_ok in I. splitb. cbn [table_stmt body_stmt stmt_ok]. apply andb_true_iff. split; [assumption|].
      apply choice_texts_ok. rewrite forallb_forall in *. intros p J. rewrite descending_in in J. auto.
    + apply forallb_each. intros m I. cbn [body_stmt]. change (stmt_ok (message_of m) = true). eapply message_of_ok, f_messages; eassumption.
    + apply forallb_flat. intros m I. apply (f_messages _ H) in I. unfold fit_message in I. splitb. unfold senders_stmts.
      destruct (m_senders m) as [|a [|b l]]; try reflexivity. cbn [forallb body_stmt stmt_ok nonempty]. unfold frame_text. rewrite number_decimal, andb_true_r. assumption.
    + apply forallb_each. intros e I. apply (f_envvars _ H) in I. unfold fit_envvar in I. splitb. cbn [envvar_stmt body_stmt stmt_ok]. rewrite !number_decimal, !num_token by assumption.
      splitg; try assumption; reflexivity.
    + apply comment_stmts_ok, H.
    + apply (definition_stmts_ok false), (f_defs _ H).
    + apply (definition_stmts_ok true), (f_rdefs _ H).
    + apply (default_stmts_ok false), (f_defs _ H).
    + apply (default_stmts_ok true), (f_rdefs _ H).
    + apply forallb_flat. intros o I. destruct (objects_in _ _ H I) as [A T]. eapply object_stmts_ok; [exact (f_defs _ H)|exact A|exact T].
    + apply rel_stmts_ok, H.
    + apply forallb_flat. intros m I. unfold choice_stmts. apply forallb_flat. intros s J. rewrite dump_order_in in J.
      eapply fit_message_signal in J; [|eapply f_messages; eassumption]. unfold fit_signal, pairs_ok in J. splitb. destruct (s_choices s) as [c|]; [|reflexivity]. cbn [opt_ok] in *. splitb.
      cbn [forallb body_stmt stmt_ok opt_ok]. unfold frame_text. rewrite number_decimal, choice_texts_ok by assumption.
      splitg; try assumption; reflexivity.
    + apply forallb_flat. intros m I. unfold types_of. apply forallb_flat. intros s J. eapply fit_message_signal in J; [|eapply f_messages; eassumption]. unfold fit_signal in J. splitb.
      destruct (s_float s); [|reflexivity]. cbn [forallb body_stmt stmt_ok]. unfold frame_text. rewrite !number_decimal.
      splitg; try assumption; reflexivity.
    + apply forallb_flat. intros m I. pose proof (f_messages _ H _ I) as F. unfold group_stmts. pose proof F as F'. unfold fit_message in F. splitb. destruct (m_groups m) as [gs|]; [|reflexivity].
      cbn [opt_ok] in *. apply forallb_each. intros g J. cbn [body_stmt stmt_ok]. unfold frame_text. rewrite !number_decimal.
      match goal with H : forallb (fun g => name_ok (g_name g)) gs = true |- _ => rewrite forallb_forall in H; rewrite (H g J) end. cbn [andb].
      rewrite forallb_forall. intros n K. apply filter_In in K. destruct K as [_ K]. apply chars_in_iff in K. apply in_map_iff in K. destruct K as (s & <- & K).
      eapply fit_message_signal in K; [|exact F']. unfold fit_signal in K. splitb. assumption.
    + destruct (extended_mux (db_messages db)); [|reflexivity]. apply forallb_flat. intros m I. unfold muxes_of. apply forallb_flat. intros s J.
      pose proof (fit_message_muxes _ _ _ (f_messages _ H _ I) J) as M. pose proof (fit_message_signal _ _ _ (f_messages _ H _ I) J) as S. unfold fit_mux in M. unfold fit_signal in S. splitb.
      destruct (s_mux_ids s) as [ids|]; [|reflexivity]. splitb. destruct ids as [|i r]; [reflexivity|]. set (ids := i :: r) in *.
      destruct (s_mux_signal s) as [n|]; [|discriminate]. splitb. cbn [forallb body_stmt stmt_ok]. unfold frame_text. rewrite number_decimal, andb_true_r. cbn [andb].
      assert (R : exists rs, create_mux_ranges ids = Ok rs /\ (forall lo hi, In (lo, hi) rs -> lo <= hi) /\ forall x, In x (range_ids rs) <-> In x ids).
      { apply C46_same_ids. discriminate. }
      destruct R as (rs & E & R1 & R2). unfold ranges_of. rewrite E. cbn [val]. splitg; try assumption.
      * destruct rs as [|r0 rs]; [|reflexivity]. exfalso. apply (proj2 (R2 i)). left. reflexivity.
      * apply forallb_each. intros [lo hi] K. unfold range_ok. cbn [fst snd]. rewrite number_decimal, number_dash; [reflexivity|].
        pose proof (R1 _ _ K) as L. assert (Q : In hi ids). { apply R2. apply in_range_ids. exists lo, hi. split; [exact K|clear - L; lia]. }
        match goal with H : forallb (Z.leb 0) ids = true |- _ => rewrite forallb_forall in H; apply H in Q end. apply Z.leb_le in Q. exact Q.
Qed.
Theorem written db : fit db = true -> exists f, dump_file db = Ok f /\ parse (file_text f) = Some (file_stmts (the_file db)).
Proof. intros H. exists (the_file db). split; [apply dump_file_ok, H|]. apply parse_file, the_file_ok, H. Qed.
End Write.
