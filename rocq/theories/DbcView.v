(** DbcView: the database that is read from the file that is written for a database that fits. *)
From Coq Require Import Ascii Permutation.
From Verif Require Import Base CSource CNames DictLemmas Regex DecText DbcNames Prop_DbcNames DbcToken DbcLex DbcStmt DbcPieces DbcParse DbcGrammar DbcDump DbcLoad DbcTables DbcFit DbcWrite DbcRead.
Local Open Scope string_scope.
Local Open Scope Z_scope.
Local Open Scope list_scope.

Section View.
Context {FL : Floats} {LW : FloatLaws FL} (set_list : list Z -> list Z).
Implicit Types (db : database) (m : dmessage) (s : dsignal) (defs : definitions).

(** ** The database *)
Definition vobjects db : attributes := map (fun p => (fst p, vattrs (dump_definitions db) (snd p))) (objects db).
Definition vname db (n : chars) : chars := node_long (vobjects db) n.
Definition sname db (fid : Z) (n : chars) : chars := signal_long (vobjects db) fid n.
Definition sig_view_attrs defs s : attrs := vattrs defs (signal_attrs s).
Definition msg_view_attrs defs m : attrs := vattrs defs (msg_attrs defs m).
Definition unlimited s : bool := is_zero_text (or_zero_text (s_min s)) && is_zero_text (or_zero_text (s_max s)).
Definition vbound s (b : option num) : option num := if unlimited s then None else Some (match b with Some n => n | None => DInt 0 end).
Definition vids (ext : bool) (l : list dsignal) (ids : list Z) : list Z :=
  set_list (match filter s_is_mux l with [_] => firstn 1 ids | _ => [] end ++ if ext then range_ids (ranges_of ids) else []).
Definition vsignal db m s : dsignal :=
  let defs := dump_definitions db in
  let a := sig_view_attrs defs s in
  DSignal (long_name "SystemSignalLongSymbol" a (s_name s)) (s_start s) (s_length s) (s_big s) (s_signed s) (val None (initial_value a)) (s_scale s) (s_offset s)
    (s_float s) (s_choices s) (vbound s (s_min s)) (vbound s (s_max s)) (match s_unit s with Some [] => None | u => u end) (s_comment s)
    (map (vname db) (if only_xxx (s_receivers s) then [] else s_receivers s)) (s_is_mux s)
    (option_map (vids (extended_mux (db_messages db)) (m_signals m)) (s_mux_ids s)) (s_mux_signal s) (val None (spn_of a (vdefs defs))) a.
Definition vsenders db m : list chars :=
  let l := fold_left add_new (match m_senders m with _ :: _ :: _ => map (vname db) (m_senders m) | _ => [] end) [vname db (hd vector_xxx (m_senders m))] in
  if only_xxx l then [] else l.
Definition vgroups db m : option (list group) :=
  match m_groups m with
  | None | Some [] => None
  | Some gs => Some (map (fun g => Group (g_name g) (g_repetitions g)
                                     (map (sname db (frame m)) (filter (fun n => chars_in n (map s_name (m_signals m))) (g_signals g)))) gs)
  end.
Definition vmessage db m : dmessage :=
  let defs := dump_definitions db in
  let a := msg_view_attrs defs m in
  let ff := val None (frame_format_of (vdefs defs) a) in
  DMessage (m_id m) (m_extended m) (long_name "SystemMessageLongSymbol" a (m_name m)) (m_length m) (vsenders db m) (val None (send_type_of (vdefs defs) a))
    (cycle_time_of (vdefs defs) a) (m_comment m) (sort_signals (map (vsignal db m) (dump_order (m_signals m))))
    (match ff with Some f => chars_eqb f (txt "J1939PG") | None => false end) (match ff with Some f => ends_with (txt "CAN_FD") f | None => false end)
    (vgroups db m) a.
Definition vnode db (n : node) : node :=
  let a := vattrs (dump_definitions db) (n_attrs n) in Node (long_name "SystemNodeLongSymbol" a (n_name n)) (n_comment n) a.
Definition venvvar db (p : chars * envvar) : chars * envvar :=
  let e := snd p in
  let a := vattrs (dump_definitions db) (e_attrs e) in
  let n := long_name "SystemEnvVarLongSymbol" a (e_name e) in
  (n, Envvar n (e_type e) (e_min e) (e_max e) (e_unit e) (e_initial e) (e_id e) (e_access e) (e_node e) (e_comment e) a).
Definition vbus_comment db : option chars := match flat_map (fun b => opt_list (b_comment b)) (db_buses db) with [] => None | c => Some (List.concat c) end.
Definition vnode_rels defs (l : list (chars * attrs)) : list (chars * attrs) := map (fun p => (fst p, vattrs defs (snd p))) l.
Definition vmsg_rels defs (l : msg_relations) : msg_relations := map (fun p => (fst p, vnode_rels defs (snd p))) l.
Definition vsig_rels defs (l : sig_relations) : sig_relations := map (fun p => (fst p, map (fun q => (fst q, vnode_rels defs (snd q))) (snd p))) l.
Definition view db : database :=
  let ms := map (vmessage db) (db_messages db) in
  let rdefs := db_rel_definitions db in
  Db (Some (match db_version db with Some v => v | None => [] end)) (map (vnode db) (db_nodes db)) (val [] (load_bus (vobjects db) (vbus_comment db))) ms
    (attrs_of (vobjects db) KDb) (vdefs (dump_definitions db)) (dupdate chars_eqb [] (map (venvvar db) (db_envvars db)))
    (map (fun t => (fst t, descending (snd t))) (db_tables db)) (rename_rels (vobjects db) ms (vsig_rels rdefs (db_sig_rels db)))
    (vmsg_rels rdefs (db_msg_rels db)) (vdefs rdefs).
(** The values that are looked up by name have the expected types. *)
Definition reads_signal defs s : bool :=
  let a := sig_view_attrs defs s in is_ok (initial_value a) && is_ok (spn_of a (vdefs defs)).
Definition reads_message defs m : bool :=
  let a := msg_view_attrs defs m in
  is_ok (frame_format_of (vdefs defs) a) && is_ok (send_type_of (vdefs defs) a) && forallb (reads_signal defs) (m_signals m).
Definition reads db : bool := is_ok (load_bus (vobjects db) (vbus_comment db)) && forallb (reads_message (dump_definitions db)) (db_messages db).

(** ** The statements by keyword *)
Lemma file_sections db : sections (the_file db).
Proof.
  constructor; cbn [the_file df_tables df_messages df_senders df_envvars df_comments df_definitions df_rel_definitions df_defaults df_rel_defaults df_attributes
      df_rel_attributes df_choices df_types df_groups df_muxes].
  - apply all_map. reflexivity.
  - apply all_map. reflexivity.
  - apply all_flat. intros m. unfold senders_stmts. destruct (m_senders m) as [|a [|b l]]; [apply all_nil..|apply all_one; reflexivity].
  - apply all_map. reflexivity.
  - unfold comment_stmts. assert (C : forall t c, all_of "CM_" (comment_stmt t c)). { intros t [c|]; [apply all_one; reflexivity|apply all_nil]. }
    repeat apply all_app; apply all_flat; intros x; try apply C. unfold message_comment. apply all_app; [apply C|]. apply all_flat. intros s. apply C.
  - apply all_flat. intros p. cbn. destruct (known_type (snd p)); [apply all_one; reflexivity|apply all_nil].
  - apply all_flat. intros p. cbn. destruct (known_type (snd p)); [apply all_one; reflexivity|apply all_nil].
  - apply all_flat. intros p. cbn. destruct (d_default (snd p)); [apply all_one; reflexivity|apply all_nil].
  - apply all_flat. intros p. cbn. destruct (d_default (snd p)); [apply all_one; reflexivity|apply all_nil].
  - apply all_flat. intros o. apply all_map. reflexivity.
  - unfold rel_stmts. apply all_app; repeat (apply all_flat; intros); apply all_map; reflexivity.
  - apply all_flat. intros m. apply all_flat. intros s. destruct (s_choices s); [apply all_one; reflexivity|apply all_nil].
  - apply all_flat. intros m. apply all_flat. intros s. destruct (s_float s); [apply all_one; reflexivity|apply all_nil].
  - apply all_flat. intros m. unfold group_stmts. destruct (m_groups m); [apply all_map; reflexivity|apply all_nil].
  - destruct (extended_mux _); [|apply all_nil]. apply all_flat. intros m. apply all_flat. intros s. destruct (s_mux_ids s) as [[|i r]|]; [apply all_nil|apply all_one; reflexivity|apply all_nil].
Qed.

(** ** Definitions *)
Definition default_text (d : definition) (v : aval) : value_text := if type_is d "STRING" || type_is d "ENUM" then VString (aval_text v) else VNumber (aval_text v).
Lemma default_dict_get rel l st p : defs_ok rel l = true -> get_stmts (if rel then "BA_DEF_DEF_REL_" else "BA_DEF_DEF_") st = default_stmts (if rel then SRelDefault else SDefault) l ->
  In p l -> cget (default_dict rel st) (fst p) = option_map (default_text (snd p)) (d_default (snd p)).
Proof.
  intros D G I. unfold default_dict. rewrite G.
  assert (E : flat_map (fun s : stmt => match s, rel with SDefault n v, false | SRelDefault n v, true => [(n, v)] | _, _ => [] end) (default_stmts (if rel then SRelDefault else SDefault) l) =
              opts (map (fun p => (fst p, option_map (default_text (snd p)) (d_default (snd p)))) l)).
  { unfold default_stmts, opts. rewrite flat_map_flat, flat_map_map. apply flat_map_ext_in. intros q J. destruct (defs_in _ _ _ D J) as [N _]. cbn [fst snd].
    destruct (d_default (snd q)); [|reflexivity]. cbn [option_map]. rewrite N. destruct rel; reflexivity. }
  rewrite E. unfold cget. rewrite (opts_get _ cspec).
  - rewrite (in_get _ cspec _ _ (option_map (default_text (snd p)) (d_default (snd p)))); [reflexivity| |].
    + rewrite map_map. apply (defs_nodup rel), D.
    + apply in_map_iff. exists p. auto.
  - rewrite map_map. apply (defs_nodup rel), D.
Qed.
Lemma to_real_aval v : default_ok (txt "FLOAT") v = true -> to_real (aval_text v) = Ok (match real_value v with AFloat f => f | _ => f_int 0 end) /\ real_value v = AFloat (match real_value v with AFloat f => f | _ => f_int 0 end).
Proof.
  unfold default_ok. change (is_int_type (txt "FLOAT")) with false. change (is_float_type (txt "FLOAT")) with true. cbn iota.
  destruct v as [z|f|t]; intros H; [|split; [apply (to_real_num (DFloat f)), H|reflexivity]|discriminate]. split; [apply (to_real_num (DInt z)), H|reflexivity].
Qed.
Lemma make_definition_view rel defaults d : def_ok rel d = true -> cget defaults (d_name d) = option_map (default_text d) (d_default d) ->
  make_definition defaults (d_kind d) (d_name d) (d_type d) (def_texts d) = Ok (view_def d).
Proof.
  intros O G. pose proof (type_cases _ _ O) as T. unfold def_ok in O. splitb. unfold make_definition. rewrite G. clear G.
  assert (C : match option_map (default_text d) (d_default d) with Some v => let* v0 := convert_value (d_type d) (value_chars v) in Ok (Some v0) | None => Ok None end =
              Ok (d_default (view_def d))).
  { unfold view_def. destruct (d_default d) as [v|] eqn:E; cbn [option_map]; [|destruct (is_float_type (d_type d)); cbn [d_default option_map]; rewrite ?E; reflexivity].
    assert (X : value_chars (default_text d v) = aval_text v). { unfold default_text. destruct (_ || _); reflexivity. } rewrite X. unfold convert_value.
    cbn [opt_ok] in *. destruct T as [T|[T|[T|[T|[T|[]]]]]]; rewrite <- T in *.
    - change (chars_eqb (txt "ENUM") (txt "INT") || chars_eqb (txt "ENUM") (txt "HEX")) with false. change (chars_eqb (txt "ENUM") (txt "FLOAT")) with false.
      change (is_float_type (txt "ENUM")) with false. cbn iota. rewrite E. destruct v; try discriminate. reflexivity.
    - change (chars_eqb (txt "INT") (txt "INT") || chars_eqb (txt "INT") (txt "HEX")) with true. change (is_float_type (txt "INT")) with false. cbn iota. rewrite E.
      destruct v; try discriminate. cbn [aval_text]. rewrite to_int_decimal. reflexivity.
    - change (chars_eqb (txt "FLOAT") (txt "INT") || chars_eqb (txt "FLOAT") (txt "HEX")) with false. change (chars_eqb (txt "FLOAT") (txt "FLOAT")) with true.
      change (is_float_type (txt "FLOAT")) with true. cbn iota. cbn [d_default option_map].
      match goal with H : default_ok _ v = true |- _ => destruct (to_real_aval v H) as [R1 R2] end. rewrite R1. cbn [bind]. rewrite <- R2. reflexivity.
    - change (chars_eqb (txt "HEX") (txt "INT") || chars_eqb (txt "HEX") (txt "HEX")) with true. change (is_float_type (txt "HEX")) with false. cbn iota. rewrite E.
      destruct v; try discriminate. cbn [aval_text]. rewrite to_int_decimal. reflexivity.
    - change (chars_eqb (txt "STRING") (txt "INT") || chars_eqb (txt "STRING") (txt "HEX")) with false. change (chars_eqb (txt "STRING") (txt "FLOAT")) with false.
      change (is_float_type (txt "STRING")) with false. cbn iota. rewrite E. destruct v; try discriminate. reflexivity. }
  rewrite C. clear C.
  assert (B : (if numeric_type (d_type d) then match def_texts d with [] => Ok (None, None) | _ => let* mn := bound (d_type d) (def_texts d) 0 in
               let* mx := bound (d_type d) (def_texts d) 1 in Ok (mn, mx) end else Ok (None, None)) = Ok (d_min (view_def d), d_max (view_def d)) /\
              (if chars_eqb (d_type d) (txt "ENUM") then map value_chars (def_texts d) else []) = d_choices d).
  { unfold view_def, def_texts, type_is, bounds_ok, bound_ok, choices_ok, bound, convert_value in *. destruct T as [T|[T|[T|[T|[T|[]]]]]]; rewrite <- T in *.
    - change (numeric_type (txt "ENUM")) with false. change (chars_eqb (txt "ENUM") (txt "ENUM")) with true in *. change (is_float_type (txt "ENUM")) with false in *.
      change (is_int_type (txt "ENUM")) with false in *. cbn iota in *. cbn [andb] in *. rewrite map_map. split; [|apply map_id].
      destruct (d_min d), (d_max d); try discriminate. reflexivity.
    - change (numeric_type (txt "INT")) with true. change (chars_eqb (txt "INT") (txt "ENUM")) with false in *. change (is_float_type (txt "INT")) with false in *.
      change (is_int_type (txt "INT")) with true in *. change (chars_eqb (txt "INT") (txt "STRING")) with false in *. change (chars_eqb (txt "INT") (txt "INT")) with true in *. cbn iota in *. cbn [orb] in *.
      split; [|destruct (d_choices d); [reflexivity|discriminate]].
      destruct (d_min d) as [[a|a]|], (d_max d) as [[b|b]|]; try discriminate; [|reflexivity]. cbn [opt_list app map nth_error value_chars num_text]. rewrite !to_int_decimal. reflexivity.
    - change (numeric_type (txt "FLOAT")) with true. change (chars_eqb (txt "FLOAT") (txt "ENUM")) with false in *. change (is_float_type (txt "FLOAT")) with true in *.
      change (is_int_type (txt "FLOAT")) with false in *. change (chars_eqb (txt "FLOAT") (txt "STRING")) with false in *. change (chars_eqb (txt "FLOAT") (txt "FLOAT")) with true in *.
      change (chars_eqb (txt "FLOAT") (txt "INT") || chars_eqb (txt "FLOAT") (txt "HEX")) with false. cbn iota in *. cbn [andb] in *.
      split; [|destruct (d_choices d); [reflexivity|discriminate]]. cbn [d_min d_max].
      destruct (d_min d) as [a|], (d_max d) as [b|]; try discriminate; [|reflexivity]. splitb. cbn [opt_list app map nth_error value_chars option_map].
      rewrite (to_real_num a), (to_real_num b) by assumption. reflexivity.
    - change (numeric_type (txt "HEX")) with true. change (chars_eqb (txt "HEX") (txt "ENUM")) with false in *. change (is_float_type (txt "HEX")) with false in *.
      change (is_int_type (txt "HEX")) with true in *. change (chars_eqb (txt "HEX") (txt "STRING")) with false in *.
      change (chars_eqb (txt "HEX") (txt "INT") || chars_eqb (txt "HEX") (txt "HEX")) with true in *. cbn iota in *.
      split; [|destruct (d_choices d); [reflexivity|discriminate]].
      destruct (d_min d) as [[a|a]|], (d_max d) as [[b|b]|]; try discriminate; [|reflexivity]. cbn [opt_list app map nth_error value_chars num_text]. rewrite !to_int_decimal. reflexivity.
    - change (numeric_type (txt "STRING")) with false. change (chars_eqb (txt "STRING") (txt "ENUM")) with false in *. change (is_float_type (txt "STRING")) with false in *.
      change (is_int_type (txt "STRING")) with false in *. cbn iota in *. cbn [andb] in *. split; [|destruct (d_choices d); [reflexivity|discriminate]].
      destruct (d_min d), (d_max d); try discriminate. reflexivity. }
  destruct B as [B1 B2]. rewrite B1, B2. cbn [bind fst snd]. f_equal. unfold view_def. destruct (is_float_type (d_type d)); [reflexivity|]. destruct d; reflexivity.
Qed.
Lemma load_definitions_view rel l st : defs_ok rel l = true ->
  get_stmts (if rel then "BA_DEF_DEF_REL_" else "BA_DEF_DEF_") st = default_stmts (if rel then SRelDefault else SDefault) l ->
  get_stmts (if rel then "BA_DEF_REL_" else "BA_DEF_") st = definition_stmts (if rel then SRelDef else SDef) l -> load_definitions rel st = Ok (vdefs l).
Proof.
  intros D G1 G2. unfold load_definitions. rewrite (collect_yields _ _ _ (vdefs l)).
  - cbn [bind]. rewrite (upd_app _ cspec); [reflexivity|]. cbn [app]. rewrite vdefs_keys. apply (defs_nodup rel), D.
  - rewrite G2. unfold definition_stmts, vdefs. assert (M : map (fun p : chars * definition => (fst p, view_def (snd p))) l = flat_map (fun p => [(fst p, view_def (snd p))]) l).
    { clear. induction l as [|p l IH]; [reflexivity|]. cbn [map flat_map app]. rewrite IH. reflexivity. }
    rewrite M. clear M. apply yields_flat. intros p I. destruct (defs_in _ _ _ D I) as [N O].
    assert (K : known_type (snd p) = true). { unfold def_ok in O. splitb. assumption. } rewrite K.
    pose proof (default_dict_get rel l st p D G1 I) as G. rewrite N in G. pose proof (make_definition_view rel _ _ O G) as V.
    apply yields_one. destruct rel; rewrite V; cbn [bind]; rewrite N; reflexivity.
Qed.

(** ** Attributes *)
Lemma retype_read t v x : retype t v = Some x -> In t [txt "ENUM"; txt "INT"; txt "FLOAT"; txt "HEX"; txt "STRING"] ->
  (if chars_eqb t (txt "INT") || chars_eqb t (txt "HEX") || chars_eqb t (txt "ENUM") then let* z := to_int (aval_text v) in Ok (AInt z)
   else if chars_eqb t (txt "FLOAT") then let* f := to_real (aval_text v) in Ok (AFloat f) else Ok (AStr (aval_text v))) = Ok x.
Proof.
  intros R T. unfold retype, is_int_type, is_float_type in R. destruct (chars_eqb t (txt "INT") || chars_eqb t (txt "HEX") || chars_eqb t (txt "ENUM")).
  - destruct v as [z|f|c]; cbn [aval_text].
    + rewrite to_int_decimal. cbn [bind]. congruence.
    + destruct (f_finite f) eqn:E; [|discriminate R]. unfold to_int. destruct (finite_text f E) as (_ & _ & I). rewrite I. destruct (f_trunc (f_text f)); [|discriminate R]. exact (f_equal Ok (f_equal (fun o => match o with Some x => x | None => x end) R)).
    + destruct (number_token c); [|discriminate R]. unfold to_int. destruct (int_text c); [|discriminate R]. cbn [option_map bind] in *. congruence.
  - destruct (chars_eqb t (txt "FLOAT")).
    + destruct v as [z|f|c]; cbn [aval_text]; [| |discriminate R].
      * destruct (small z) eqn:E; [|discriminate R]. change (decimal z) with (num_text (DInt z)). rewrite (to_real_num (DInt z)) by exact E. cbn [bind to_float]. congruence.
      * destruct (f_finite f) eqn:E; [|discriminate R]. change (f_text f) with (num_text (DFloat f)). rewrite (to_real_num (DFloat f)) by exact E. cbn [bind to_float]. congruence.
    + destruct v as [z|f|c]; [discriminate R..|]. destruct (plain_text c); [|discriminate R]. cbn [aval_text]. congruence.
Qed.
Lemma value_chars_attr a : value_chars (attr_value a) = aval_text (a_value a).
Proof. unfold attr_value, quoted_kind. destruct (type_is _ _); reflexivity. Qed.
Lemma make_attribute_view rel defs k x : defs_ok rel defs = true -> attr_ok defs k x = true ->
  make_attribute (vdefs defs) (fst x) (attr_value (snd x)) = Ok (snd (view_attr defs x)).
Proof.
  intros D H. unfold attr_ok in H. splitb. unfold make_attribute, view_attr. rewrite vdefs_get. cbn [snd].
  destruct (cget defs (fst x)) as [d|] eqn:G; [|discriminate]. splitb. cbn [option_map]. rewrite view_def_type, value_chars_attr.
  destruct (retype (d_type d) (a_value (snd x))) as [v|] eqn:R; [|discriminate]. destruct (defs_get _ _ _ _ D G) as [N O].
  rewrite (retype_read _ _ _ R (type_cases _ _ O)). reflexivity.
Qed.
Lemma key_target_read k : match key_target k with [] => Ok KDb | t :: _ => target_key t end = Ok k.
Proof. destruct k; try reflexivity; cbn; rewrite int_of_decimal; reflexivity. Qed.
Lemma attribute_items db : fits db -> yields (attribute_item (vdefs (dump_definitions db))) (flat_map object_stmts (objects db)) (flat1 (vobjects db)).
Proof.
  intros H. unfold flat1, vobjects. rewrite flat_map_map. apply yields_flat. intros o I. destruct (objects_in _ _ H I) as [A _]. cbn [fst snd]. unfold vattrs. rewrite map_map.
  apply yields_map. intros x J. cbn [attribute_item]. rewrite key_target_read. cbn [bind].
  rewrite (make_attribute_view false _ _ _ (f_defs _ H) (attrs_in _ _ _ _ A J)). reflexivity.
Qed.
Lemma dump_order_names l : Permutation (map s_name (dump_order l)) (map s_name l).
Proof. apply Permutation_map. unfold dump_order, sort_signals. transitivity (sorted_py by_start l); [apply Permutation_sym, Permutation_rev|apply sorted_py_perm]. Qed.
Lemma signal_names db m : fits db -> In m (db_messages db) -> NoDup (map s_name (m_signals m)).
Proof. intros H I. apply (f_messages _ H) in I. unfold fit_message in I. splitb. apply (nodup_by_spec _ cspec). assumption. Qed.
Definition key_frame (k : okey) : Z := match k with KMsg z | KSig z _ => z | _ => 0 end.
Lemma message_keys_nodup db : fits db ->
  NoDup (flat_map (fun m => KMsg (frame m) :: map (fun s => KSig (frame m) (s_name s)) (dump_order (m_signals m))) (db_messages db)).
Proof.
  intros H. apply (nodup_flat _ frame key_frame).
  - exact (f_frames _ H).
  - intros m I. constructor; [intros J; apply in_map_iff in J; destruct J as (s & J & _); discriminate J|].
    apply (nodup_map_of s_name (KSig (frame m))); [|intros x y E; congruence].
    eapply Permutation_NoDup; [apply Permutation_sym, dump_order_names|]. apply (signal_names db); assumption.
  - intros m y I [<-|J]; [reflexivity|]. apply in_map_iff in J. destruct J as (s & <- & _). reflexivity.
Qed.
Lemma objects_nodup db : fits db -> NoDup (map fst (objects db)).
Proof.
  intros H. unfold objects. cbn [map fst]. rewrite !map_app, !map_map. cbn [fst].
  assert (E : map fst (flat_map (msg_objects (dump_definitions db)) (db_messages db)) =
              flat_map (fun m => KMsg (frame m) :: map (fun s => KSig (frame m) (s_name s)) (dump_order (m_signals m))) (db_messages db)).
  { clear. induction (db_messages db) as [|m l IH]; [reflexivity|]. cbn [flat_map]. rewrite map_app, IH. unfold msg_objects. cbn [map fst app]. rewrite map_map. reflexivity. }
  rewrite E. assert (M : forall k, In k (flat_map (fun m => KMsg (frame m) :: map (fun s => KSig (frame m) (s_name s)) (dump_order (m_signals m))) (db_messages db)) ->
    (exists z, k = KMsg z) \/ exists z n, k = KSig z n).
  { intros k I. apply in_flat_map in I. destruct I as (m & _ & [<-|I]); [left; eauto|]. apply in_map_iff in I. destruct I as (s & <- & _). right. eauto. }
  constructor.
  - intros I. apply in_app_iff in I. destruct I as [I|I]; [apply in_map_iff in I; destruct I as (e & I & _); discriminate I|].
    apply in_app_iff in I. destruct I as [I|I]; [apply in_map_iff in I; destruct I as (e & I & _); discriminate I|].
    apply M in I. destruct I as [(z & I)|(z & n & I)]; discriminate I.
  - apply nodup_app.
    + apply (nodup_map_of (fun e => e_name (snd e)) KEnv); [exact (f_env_names _ H)|intros x y E'; congruence].
    + apply nodup_app.
      * apply (nodup_map_of n_name KNode); [exact (f_node_names _ H)|intros x y E'; congruence].
      * apply message_keys_nodup, H.
      * intros k I J. apply in_map_iff in I. destruct I as (e & <- & _). apply M in J. destruct J as [(z & J)|(z & n & J)]; discriminate J.
    + intros k I J. apply in_map_iff in I. destruct I as (e & <- & _). apply in_app_iff in J. destruct J as [J|J].
      * apply in_map_iff in J. destruct J as (n & J & _). discriminate J.
      * apply M in J. destruct J as [(z & J)|(z & n & J)]; discriminate J.
Qed.
Lemma vobjects_keys db : map fst (vobjects db) = map fst (objects db).
Proof. unfold vobjects. rewrite map_map. reflexivity. Qed.
Lemma attrs_read db k : fits db -> attrs_of (nest okey_eqb (flat1 (vobjects db))) k = attrs_of (vobjects db) k.
Proof.
  intros H. apply (nest_get okey_eqb ospec).
  - rewrite vobjects_keys. apply objects_nodup, H.
  - intros p I. unfold vobjects in I. apply in_map_iff in I. destruct I as (o & <- & I). cbn [snd]. rewrite vattrs_keys. destruct (objects_in _ _ H I) as [A _]. exact (attrs_nodup _ _ _ A).
Qed.
Lemma attrs_object db k a : fits db -> In (k, a) (objects db) -> attrs_of (vobjects db) k = vattrs (dump_definitions db) a.
Proof.
  intros H I. unfold attrs_of. rewrite (in_get _ ospec _ _ (vattrs (dump_definitions db) a)); [reflexivity| |].
  - rewrite vobjects_keys. apply objects_nodup, H.
  - unfold vobjects. apply in_map_iff. exists (k, a). auto.
Qed.
Lemma attrs_message db m : fits db -> In m (db_messages db) -> attrs_of (vobjects db) (KMsg (frame m)) = msg_view_attrs (dump_definitions db) m.
Proof. intros H I. apply attrs_object; [exact H|]. unfold objects. right. apply in_app_iff. right. apply in_app_iff. right. apply in_flat_map. exists m. split; [exact I|left; reflexivity]. Qed.
Lemma attrs_signal db m s : fits db -> In m (db_messages db) -> In s (m_signals m) -> attrs_of (vobjects db) (KSig (frame m) (s_name s)) = sig_view_attrs (dump_definitions db) s.
Proof.
  intros H I J. apply attrs_object; [exact H|]. unfold objects. right. apply in_app_iff. right. apply in_app_iff. right. apply in_flat_map. exists m. split; [exact I|]. right.
  apply in_map_iff. exists s. split; [reflexivity|]. apply dump_order_in, J.
Qed.
Lemma attrs_node db n : fits db -> In n (db_nodes db) -> attrs_of (vobjects db) (KNode (n_name n)) = vattrs (dump_definitions db) (n_attrs n).
Proof. intros H I. apply attrs_object; [exact H|]. unfold objects. right. apply in_app_iff. right. apply in_app_iff. left. apply in_map_iff. exists n. auto. Qed.
Lemma attrs_envvar db e : fits db -> In e (db_envvars db) -> attrs_of (vobjects db) (KEnv (e_name (snd e))) = vattrs (dump_definitions db) (e_attrs (snd e)).
Proof. intros H I. apply attrs_object; [exact H|]. unfold objects. right. apply in_app_iff. left. apply in_map_iff. exists e. auto. Qed.

(** ** Comments *)
Definition comment_objects db : list (okey * option chars) :=
  map (fun n => (KNode (n_name n), n_comment n)) (db_nodes db) ++
  flat_map (fun m => (KMsg (frame m), m_comment m) :: map (fun s => (KSig (frame m) (s_name s), s_comment s)) (dump_order (m_signals m))) (db_messages db) ++
  map (fun e => (KEnv (e_name (snd e)), e_comment (snd e))) (db_envvars db).
Definition comment_item (s : stmt) : result (list (okey * chars)) := match s with SComment (Some t) c => let* k := target_key t in Ok [(k, c)] | _ => Ok [] end.
Lemma opts_app {K V} (a b : list (K * option V)) : opts (a ++ b) = opts a ++ opts b. Proof. apply flat_map_app. Qed.
Lemma comment_yields t k c : target_key t = Ok k -> yields comment_item (comment_stmt (Some t) c) (opts [(k, c)]).
Proof. intros T. destruct c; [|apply yields_nil]. apply yields_one. cbn [comment_item]. rewrite T. reflexivity. Qed.
Lemma opts_flat {A K V} (f : A -> list (K * option V)) l : opts (flat_map f l) = flat_map (fun x => opts (f x)) l.
Proof. apply flat_map_flat. Qed.
Lemma map_flat {A B} (f : A -> B) l : map f l = flat_map (fun x => [f x]) l.
Proof. induction l as [|x l IH]; [reflexivity|]. cbn [map flat_map app]. rewrite IH. reflexivity. Qed.
Lemma comments_yield db : yields comment_item (comment_stmts db) (opts (comment_objects db)).
Proof.
  unfold comment_stmts, comment_objects. rewrite !opts_app, !map_flat, !opts_flat.
  refine (yields_app comment_item (flat_map bus_comment (db_buses db)) _ [] _ _ _).
  { assert (E : forall l : list bus, yields comment_item (flat_map bus_comment l) []); [|apply E]. intros l.
    replace (@nil (okey * chars)) with (flat_map (fun _ : bus => @nil (okey * chars)) l) by (induction l; [reflexivity|assumption]).
    apply yields_flat. intros b _. unfold bus_comment. destruct (b_comment b); [apply yields_one; reflexivity|apply yields_nil]. }
  apply yields_app; [|apply yields_app]; apply yields_flat; intros x _.
  - apply comment_yields. reflexivity.
  - unfold message_comment. match goal with |- yields _ _ (opts (?p :: ?l)) => change (opts (p :: l)) with (opts ([p] ++ l)) end. rewrite opts_app. apply yields_app.
    + apply comment_yields. cbn [target_key String.eqb Ascii.eqb Bool.eqb]. unfold frame_text. rewrite int_of_decimal. reflexivity.
    + rewrite map_flat, opts_flat. apply yields_flat. intros s _. apply comment_yields. cbn [target_key String.eqb Ascii.eqb Bool.eqb]. unfold frame_text. rewrite int_of_decimal. reflexivity.
  - apply comment_yields. reflexivity.
Qed.

Lemma comment_objects_nodup db : fits db -> NoDup (map fst (comment_objects db)).
Proof.
  intros H. unfold comment_objects. rewrite !map_app, !map_map. cbn [fst].
  assert (E : map fst (flat_map (fun m => (KMsg (frame m), m_comment m) :: map (fun s => (KSig (frame m) (s_name s), s_comment s)) (dump_order (m_signals m))) (db_messages db)) =
              flat_map (fun m => KMsg (frame m) :: map (fun s => KSig (frame m) (s_name s)) (dump_order (m_signals m))) (db_messages db)).
  { clear. induction (db_messages db) as [|m l IH]; [reflexivity|]. cbn [flat_map]. rewrite map_app, IH. cbn [map fst app]. rewrite map_map. reflexivity. }
  rewrite E. assert (M : forall k, In k (flat_map (fun m => KMsg (frame m) :: map (fun s => KSig (frame m) (s_name s)) (dump_order (m_signals m))) (db_messages db)) ->
    (exists z, k = KMsg z) \/ exists z n, k = KSig z n).
  { intros k I. apply in_flat_map in I. destruct I as (m & _ & [<-|I]); [left; eauto|]. apply in_map_iff in I. destruct I as (s & <- & _). right. eauto. }
  apply nodup_app; [|apply nodup_app|].
  - apply (nodup_map_of n_name KNode); [exact (f_node_names _ H)|intros x y E'; congruence].
  - apply message_keys_nodup, H.
  - apply (nodup_map_of (fun e => e_name (snd e)) KEnv); [exact (f_env_names _ H)|intros x y E'; congruence].
  - intros k I J. apply in_map_iff in J. destruct J as (e & <- & _). apply M in I. destruct I as [(z & J)|(z & n & J)]; discriminate J.
  - intros k I J. apply in_map_iff in I. destruct I as (e & <- & _). apply in_app_iff in J. destruct J as [J|J].
    + apply M in J. destruct J as [(z & J)|(z & n & J)]; discriminate J.
    + apply in_map_iff in J. destruct J as (n & J & _). discriminate J.
Qed.
Definition cdict db : list (okey * chars) := comments_dict (opts (comment_objects db)).
Lemma comment_read db k c : fits db -> In (k, c) (comment_objects db) -> dget okey_eqb (cdict db) k = c.
Proof.
  intros H I. unfold cdict, comments_dict. rewrite (opts_get _ ospec) by (apply comment_objects_nodup, H).
  rewrite (in_get _ ospec _ _ c); [reflexivity|apply comment_objects_nodup, H|exact I].
Qed.
Lemma comment_message db m : fits db -> In m (db_messages db) -> dget okey_eqb (cdict db) (KMsg (frame m)) = m_comment m.
Proof. intros H I. apply comment_read; [exact H|]. apply in_app_iff. right. apply in_app_iff. left. apply in_flat_map. exists m. split; [exact I|left; reflexivity]. Qed.
Lemma comment_signal db m s : fits db -> In m (db_messages db) -> In s (m_signals m) -> dget okey_eqb (cdict db) (KSig (frame m) (s_name s)) = s_comment s.
Proof.
  intros H I J. apply comment_read; [exact H|]. apply in_app_iff. right. apply in_app_iff. left. apply in_flat_map. exists m. split; [exact I|]. right.
  apply in_map_iff. exists s. split; [reflexivity|apply dump_order_in, J].
Qed.
Lemma comment_node db n : fits db -> In n (db_nodes db) -> dget okey_eqb (cdict db) (KNode (n_name n)) = n_comment n.
Proof. intros H I. apply comment_read; [exact H|]. apply in_app_iff. left. apply in_map_iff. exists n. auto. Qed.
Lemma comment_envvar db e : fits db -> In e (db_envvars db) -> dget okey_eqb (cdict db) (KEnv (e_name (snd e))) = e_comment (snd e).
Proof. intros H I. apply comment_read; [exact H|]. apply in_app_iff. right. apply in_app_iff. right. apply in_map_iff. exists e. auto. Qed.
Lemma bus_comments_read db : flat_map (fun s : stmt => match s with SComment None c => [c] | _ => [] end) (comment_stmts db) = flat_map (fun b => opt_list (b_comment b)) (db_buses db).
Proof.
  unfold comment_stmts. set (g := fun s : stmt => match s with SComment None c => [c] | _ => [] end).
  assert (Z : forall t c, flat_map g (comment_stmt (Some t) c) = []). { intros t [c|]; reflexivity. }
  assert (N : forall A (h : A -> list stmt) l, (forall x, flat_map g (h x) = []) -> flat_map g (flat_map h l) = []).
  { intros A h l HN. rewrite flat_map_flat. induction l as [|x l IH]; [reflexivity|]. cbn [flat_map]. rewrite HN, IH. reflexivity. }
  rewrite !flat_map_app. rewrite (N _ node_comment), (N _ message_comment), (N _ envvar_comment).
  - rewrite !app_nil_r, flat_map_flat. apply flat_map_ext. intros b. unfold bus_comment. destruct (b_comment b); reflexivity.
  - intros e. apply Z.
  - intros m. unfold message_comment. rewrite flat_map_app, Z, (N _ (signal_comment m)); [reflexivity|]. intros s. apply Z.
  - intros n. apply Z.
Qed.

(** ** Tables, choices and types *)
Lemma read_pairs_texts l : NoDup (map fst l) -> read_pairs (choice_texts l) = Ok l.
Proof.
  intros N. unfold read_pairs, choice_texts. rewrite (mapM_all _ (fun p => match int_text (fst p) with Some z => (z, snd p) | None => (0, snd p) end)).
  - cbn [bind]. rewrite map_map. assert (E : map (fun p : Z * chars => match int_text (fst (decimal (fst p), snd p)) with Some z => (z, snd (decimal (fst p), snd p)) | None => (0, snd (decimal (fst p), snd p)) end) l = l).
    { rewrite <- (map_id l) at 2. apply map_ext. intros [z c]. cbn [fst snd]. rewrite int_decimal. reflexivity. }
    rewrite E. rewrite (upd_app _ zspec) by exact N. reflexivity.
  - intros p I. apply in_map_iff in I. destruct I as (q & <- & _). cbn [fst snd]. rewrite int_of_decimal, int_decimal. reflexivity.
Qed.
Lemma descending_nodup l : NoDup (map fst l) -> NoDup (map fst (descending l)).
Proof.
  intros N. eapply Permutation_NoDup; [|exact N]. apply Permutation_map. unfold descending. apply Permutation_sym.
  transitivity (sorted_py (fun a b : Z * chars => fst a <=? fst b) l); [apply Permutation_sym, Permutation_rev|apply sorted_py_perm].
Qed.
Lemma tables_read db st : fits db -> get_stmts "VAL_TABLE_" st = map table_stmt (db_tables db) -> load_tables st = Ok (map (fun t => (fst t, descending (snd t))) (db_tables db)).
Proof.
  intros H G. unfold load_tables. rewrite (collect_yields _ _ _ (map (fun t => (fst t, descending (snd t))) (db_tables db))).
  - cbn [bind]. rewrite (upd_app _ cspec); [reflexivity|]. cbn [app]. rewrite map_map. exact (f_table_names _ H).
  - rewrite G. apply yields_map. intros t I. apply (f_tables _ H) in I. unfold fit_table, pairs_ok in I. splitb. cbn [table_stmt].
    rewrite read_pairs_texts; [reflexivity|]. apply descending_nodup, (nodup_by_spec _ zspec). assumption.
Qed.
Definition frame_pairs {V} (f : dsignal -> option V) (order : list dsignal -> list dsignal) db : list ((Z * chars) * option V) :=
  flat_map (fun m => map (fun s => ((frame m, s_name s), f s)) (order (m_signals m))) (db_messages db).
Lemma frame_pairs_nodup {V} (f : dsignal -> option V) order db : fits db -> (forall l, Permutation (order l) l) -> NoDup (map fst (frame_pairs f order db)).
Proof.
  intros H P. unfold frame_pairs.
  assert (E : map fst (flat_map (fun m => map (fun s => ((frame m, s_name s), f s)) (order (m_signals m))) (db_messages db)) =
              flat_map (fun m => map (fun s => (frame m, s_name s)) (order (m_signals m))) (db_messages db)).
  { clear. induction (db_messages db) as [|m l IH]; [reflexivity|]. cbn [flat_map]. rewrite map_app, IH. rewrite map_map. reflexivity. }
  rewrite E. apply (nodup_flat _ frame fst).
  - exact (f_frames _ H).
  - intros m I. apply (nodup_map_of s_name (pair (frame m))); [|intros x y E'; congruence].
    eapply Permutation_NoDup; [apply Permutation_map, Permutation_sym, P|]. apply (signal_names db); assumption.
  - intros m y I J. apply in_map_iff in J. destruct J as (s & <- & _). reflexivity.
Qed.
Lemma frame_pairs_get {V} (f : dsignal -> option V) order db m s : fits db -> (forall l, Permutation (order l) l) -> In m (db_messages db) -> In s (m_signals m) ->
  dget zc_eqb (dupdate zc_eqb [] (opts (frame_pairs f order db))) (frame m, s_name s) = f s.
Proof.
  intros H P I J. rewrite (opts_get _ zcspec) by (apply frame_pairs_nodup; assumption). rewrite (in_get _ zcspec _ _ (f s)); [reflexivity|apply frame_pairs_nodup; assumption|].
  unfold frame_pairs. apply in_flat_map. exists m. split; [exact I|]. apply in_map_iff. exists s. split; [reflexivity|]. eapply Permutation_in; [apply Permutation_sym, P|exact J].
Qed.
Lemma dump_order_perm l : Permutation (dump_order l) l.
Proof. unfold dump_order, sort_signals. transitivity (sorted_py by_start l); [apply Permutation_sym, Permutation_rev|apply sorted_py_perm]. Qed.
Definition choices_dict db := dupdate zc_eqb [] (opts (frame_pairs s_choices dump_order db)).
Lemma choices_read db st : fits db -> get_stmts "VAL_" st = flat_map choice_stmts (db_messages db) -> load_choices st = Ok (choices_dict db).
Proof.
  intros H G. unfold load_choices. rewrite (collect_yields _ _ _ (opts (frame_pairs s_choices dump_order db))); [reflexivity|].
  rewrite G. unfold frame_pairs. rewrite opts_flat. apply yields_flat. intros m I. rewrite map_flat, opts_flat. unfold choice_stmts. apply yields_flat. intros s J.
  rewrite dump_order_in in J. apply (fit_message_signal _ _ _ (f_messages _ H _ I)) in J. unfold fit_signal, pairs_ok in J. splitb.
  destruct (s_choices s) as [c|]; [|apply yields_nil]. cbn [opt_ok] in *. splitb. apply yields_one. cbn [opts flat_map snd app fst].
  rewrite read_pairs_texts by (apply (nodup_by_spec _ zspec); assumption). cbn [bind]. destruct c as [|p c]; [discriminate|]. unfold frame_text. rewrite int_of_decimal. reflexivity.
Qed.
Definition type_code s : option Z := if s_float s then Some (if s_length s =? 32 then 1 else 2) else None.
Definition types_dict db := dupdate zc_eqb [] (opts (frame_pairs type_code (fun l => l) db)).
Lemma types_read db st : get_stmts "SIG_VALTYPE_" st = flat_map types_of (db_messages db) -> load_types st = Ok (types_dict db).
Proof.
  intros G. unfold load_types. rewrite (collect_yields _ _ _ (opts (frame_pairs type_code (fun l => l) db))); [reflexivity|].
  rewrite G. unfold frame_pairs. rewrite opts_flat. apply yields_flat. intros m I. rewrite map_flat, opts_flat. unfold types_of. apply yields_flat. intros s J. unfold type_code.
  destruct (s_float s); [|apply yields_nil]. apply yields_one. unfold frame_text. rewrite !int_of_decimal. reflexivity.
Qed.

(** ** Senders, groups and multiplexers *)
Lemma node_long_read db n : fits db -> node_long (nest okey_eqb (flat1 (vobjects db))) n = vname db n.
Proof. intros H. unfold node_long, vname, node_long. rewrite attrs_read by exact H. reflexivity. Qed.
Lemma signal_long_read db fid n : fits db -> signal_long (nest okey_eqb (flat1 (vobjects db))) fid n = sname db fid n.
Proof. intros H. unfold signal_long, sname, signal_long. rewrite attrs_read by exact H. reflexivity. Qed.
Definition sender_items db m : list chars := match m_senders m with _ :: _ :: _ => map (vname db) (m_senders m) | _ => [] end.
Definition sender_list db := flat_map (fun m => map (pair (frame m)) (sender_items db m)) (db_messages db).
Lemma senders_read db st : fits db -> get_stmts "BO_TX_BU_" st = flat_map senders_stmts (db_messages db) ->
  load_senders (nest okey_eqb (flat1 (vobjects db))) st = Ok (sender_list db).
Proof.
  intros H G. unfold load_senders. apply collect_yields. rewrite G. apply yields_flat. intros m I. unfold senders_stmts, sender_items.
  destruct (m_senders m) as [|a [|b l]]; [apply yields_nil..|]. apply yields_one. unfold frame_text. rewrite int_of_decimal. cbn [bind]. f_equal.
  rewrite !map_map. apply map_ext. intros n. rewrite node_long_read by exact H. reflexivity.
Qed.
Definition group_items db m : list group :=
  match m_groups m with
  | None => []
  | Some gs => map (fun g => Group (g_name g) (g_repetitions g)
                               (map (sname db (frame m)) (filter (fun n => chars_in n (map s_name (m_signals m))) (g_signals g)))) gs
  end.
Definition group_list db := flat_map (fun m => map (pair (frame m)) (group_items db m)) (db_messages db).
Lemma groups_read db st : fits db -> get_stmts "SIG_GROUP_" st = flat_map group_stmts (db_messages db) ->
  load_groups (nest okey_eqb (flat1 (vobjects db))) st = Ok (group_list db).
Proof.
  intros H G. unfold load_groups. apply collect_yields. rewrite G. apply yields_flat. intros m I. unfold group_stmts, group_items.
  destruct (m_groups m) as [gs|]; [|apply yields_nil]. rewrite map_map. apply yields_map. intros g J. unfold frame_text. rewrite !int_of_decimal. cbn [bind].
  do 3 f_equal. f_equal. apply map_ext. intros n. apply signal_long_read, H.
Qed.
Definition mux_items m : list (chars * (chars * list Z)) :=
  flat_map (fun s => match s_mux_ids s with
                     | None | Some [] => []
                     | Some ids => [(match s_mux_signal s with Some n => n | None => txt "None" end, (s_name s, range_ids (ranges_of ids)))]
                     end) (m_signals m).
Definition mux_list db := if extended_mux (db_messages db) then flat_map (fun m => map (pair (frame m)) (mux_items m)) (db_messages db) else [].
Lemma map_flat_map {A B C} (g : B -> C) (f : A -> list B) l : map g (flat_map f l) = flat_map (fun x => map g (f x)) l.
Proof. induction l as [|x l IH]; [reflexivity|]. cbn [flat_map]. rewrite map_app, IH. reflexivity. Qed.
Lemma ranges_read_back rs : read_ranges (map (fun p => (decimal (fst p), "-"%char :: decimal (snd p))) rs) = Ok (range_ids rs).
Proof.
  unfold read_ranges. rewrite (mapM_all _ (fun r => (match int_text (fst r) with Some z => z | None => 0 end, match int_text (tl (snd r)) with Some z => z | None => 0 end))).
  - cbn [bind]. rewrite map_map. f_equal. f_equal. rewrite <- (map_id rs) at 2. apply map_ext. intros [a b]. cbn [fst snd tl]. rewrite !int_decimal. reflexivity.
  - intros r I. apply in_map_iff in I. destruct I as ([a b] & <- & _). cbn [fst snd tl]. rewrite !int_of_decimal, !int_decimal. reflexivity.
Qed.
Lemma muxes_read db st : get_stmts "SG_MUL_VAL_" st = (if extended_mux (db_messages db) then flat_map muxes_of (db_messages db) else []) -> load_mux_values st = Ok (mux_list db).
Proof.
  intros G. unfold load_mux_values. apply collect_yields. rewrite G. unfold mux_list. destruct (extended_mux (db_messages db)); [|apply yields_nil].
  apply yields_flat. intros m I. unfold muxes_of, mux_items. rewrite map_flat_map. apply yields_flat. intros s J.
  destruct (s_mux_ids s) as [[|i r]|]; [apply yields_nil| |apply yields_nil]. apply yields_one. unfold frame_text. rewrite int_of_decimal. cbn [bind].
  rewrite ranges_read_back. reflexivity.
Qed.
End View.
