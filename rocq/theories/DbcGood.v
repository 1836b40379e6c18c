(** DbcGood: after its names are changed, a good database fits a DBC file. *)
From Coq Require Import Ascii Permutation.
From Verif Require Import Base CSource CNames DictLemmas Regex DecText DbcNames Prop_DbcNames DbcToken DbcLex DbcStmt DbcPieces DbcParse DbcGrammar DbcDump DbcLoad DbcTables DbcFit DbcWrite DbcRead DbcView DbcSame DbcShort.
Local Open Scope string_scope.
Local Open Scope Z_scope.
Local Open Scope list_scope.

Lemma nodup_by_intro {A} (eqb : A -> A -> bool) (spec : forall a b, reflect (a = b) (eqb a b)) l : NoDup l -> nodup_by eqb l = true.
Proof.
  induction l as [|x l IH]; intros N; [reflexivity|]. inversion N; subst. cbn [nodup_by]. rewrite IH by assumption. rewrite andb_true_r. apply negb_true_iff.
  destruct (existsb (eqb x) l) eqn:E; [|reflexivity]. exfalso. apply existsb_exists in E. destruct E as (y & I & E). destruct (spec x y); [congruence|discriminate].
Qed.
Lemma kind_eqb_eq a b : kind_eqb a b = true -> a = b.
Proof. destruct a, b; cbn; try discriminate; try reflexivity. intros H. apply String.eqb_eq in H. congruence. Qed.
Lemma kind_eqb_refl a : kind_eqb a a = true.
Proof. destruct a; [apply String.eqb_refl|reflexivity]. Qed.
Lemma exists_last_or {A} (l : list A) : l = [] \/ exists r x, l = r ++ [x].
Proof. destruct l as [|x l]; [left; reflexivity|]. right. destruct (exists_last (l := x :: l) ltac:(discriminate)) as (r & y & E). eauto. Qed.
Lemma name_plain n : name_ok n = true -> plain_text n = true.
Proof.
  unfold name_ok, word_text, plain_text. intros H. apply andb_true_iff in H. destruct H as [H _]. destruct n as [|c r]; [discriminate H|]. apply andb_true_iff in H.
  destruct H as [_ H]. set (w := c :: r) in *. clearbody w. apply andb_true_iff. split.
  - rewrite forallb_forall in *. intros x I. specialize (H x I). destruct (Ascii.eqb_spec x quote) as [->|]; [discriminate H|reflexivity].
  - unfold ends_in_backslash. destruct (exists_last_or w) as [->|(l & x & ->)]; [reflexivity|]. rewrite last_last. rewrite forallb_forall in H.
    specialize (H x ltac:(apply in_or_app; right; left; reflexivity)). destruct (Ascii.eqb_spec x backslash) as [->|]; [discriminate H|reflexivity].
Qed.
Lemma name_dbc n : name_ok n = true -> get_dbc_name n = Ok n.
Proof.
  unfold name_ok, word_text. intros H. apply andb_true_iff in H. destruct H as [H _]. destruct n as [|c r]; [discriminate H|]. apply andb_true_iff in H. destruct H as [H1 H2].
  apply C45_word_kept; [discriminate|exact H2|]. unfold name_start in H1. apply andb_true_iff in H1. destruct H1 as [_ H1]. apply negb_true_iff, H1.
Qed.

Section Good.
Context {FL : Floats} {LW : FloatLaws FL} (shorten : bool).
Implicit Types (db : database) (m : dmessage) (s : dsignal) (defs : definitions) (d : definition) (a : attrs).

(** ** Definitions *)
Lemma good_defs_in defs n d : good_defs defs = true -> cget defs n = Some d -> d_name d = n /\ def_ok false d = true /\ good_def d = true.
Proof.
  unfold good_defs. intros H G. apply andb_true_iff in H. destruct H as [H1 H2]. destruct (defs_get _ _ _ _ H1 G) as [E O]. split; [congruence|]. split; [exact O|].
  apply (get_in _ cspec) in G. rewrite forallb_forall in H2. exact (H2 _ G).
Qed.
Lemma good_defs_nodup defs : good_defs defs = true -> NoDup (map fst defs).
Proof. unfold good_defs. intros H. apply andb_true_iff in H. apply (defs_nodup false), H. Qed.
Lemma good_defs_ok defs : good_defs defs = true -> defs_ok false defs = true.
Proof. unfold good_defs. intros H. now apply andb_true_iff in H. Qed.
Lemma good_named defs : good_defs defs = true -> named defs.
Proof. intros H k x G. apply (good_defs_in _ _ _ H G). Qed.
Lemma good_standard defs n p d : good_defs defs = true -> In (n, p) standard -> cget defs (txt n) = Some d -> p d = true.
Proof.
  intros H I G. destruct (good_defs_in _ _ _ H G) as (N & _ & O). unfold good_def in O. rewrite forallb_forall in O.
  specialize (O _ I). cbn [fst snd] in O. rewrite N, chars_eqb_refl in O. exact O.
Qed.
Lemma real_view d : real_def d = true -> view_def d = d.
Proof.
  unfold real_def, view_def. destruct (is_float_type (d_type d)) eqn:E; [|reflexivity]. cbn [negb orb]. intros H. splitb. destruct d as [n df k t mn mx c].
  cbn [d_name d_default d_kind d_type d_min d_max d_choices] in *. f_equal.
  - destruct df as [[z|f|x]|]; try discriminate; reflexivity.
  - destruct mn as [[z|f]|]; try discriminate; reflexivity.
  - destruct mx as [[z|f]|]; try discriminate; reflexivity.
Qed.
Lemma real_defs_view defs n d : real_defs defs = true -> cget defs n = Some d -> view_def d = d.
Proof. unfold real_defs. intros H G. apply (get_in _ cspec) in G. rewrite forallb_forall in H. apply real_view, (H _ G). Qed.
Lemma real_vdefs defs : real_defs defs = true -> vdefs defs = defs.
Proof.
  unfold real_defs, vdefs. intros H. rewrite forallb_forall in H. rewrite (map_ext_in _ (fun p => p)); [apply map_id|].
  intros [k d] I. specialize (H _ I). cbn [fst snd] in *. rewrite real_view by exact H. reflexivity.
Qed.
Lemma get_ensure defs d n : cget (ensure defs d) n = if chars_eqb (d_name d) n then Some (ensured defs d) else cget defs n.
Proof.
  unfold ensure, ensured. destruct (cmem defs (d_name d)) eqn:M.
  - destruct (cspec (d_name d) n) as [<-|]; [|reflexivity]. unfold cmem in M. rewrite (mem_true _ cspec) in M. apply (get_in_keys _ cspec) in M. destruct M as (x & M).
    unfold cget. rewrite M. reflexivity.
  - unfold cget, cset. rewrite (get_set _ cspec). destruct (cspec (d_name d) n) as [<-|]; [|reflexivity].
    destruct (dget chars_eqb defs (d_name d)) as [x|] eqn:G; [|reflexivity]. exfalso. assert (T : cmem defs (d_name d) = true); [|congruence].
    unfold cmem. rewrite (mem_true _ cspec). apply (get_in_keys _ cspec). exists x. exact G.
Qed.
Lemma get_add b defs d n : cget (add_if b defs d) n = if b && chars_eqb (d_name d) n then Some (ensured defs d) else cget defs n.
Proof. destruct b; [apply get_ensure|reflexivity]. Qed.
Lemma good_ensure defs d : good_defs defs = true -> def_ok false d = true -> good_def d = true -> good_defs (ensure defs d) = true.
Proof.
  intros G O O2. unfold ensure. destruct (cmem defs (d_name d)) eqn:M; [exact G|]. pose proof (good_defs_nodup _ G) as ND.
  assert (NI : ~ In (d_name d) (map fst defs)). { intros I. unfold cmem in M. rewrite (proj2 (mem_true _ cspec _ _) I) in M. discriminate M. }
  unfold cset. rewrite (set_new _ cspec) by exact NI. unfold good_defs, defs_ok in *. splitb. rewrite !forallb_app, map_app. cbn [forallb map fst snd].
  rewrite O, O2, chars_eqb_refl. splitg; try assumption; try reflexivity. apply (nodup_by_intro _ cspec).
  apply (Permutation_NoDup (Permutation_cons_append _ _)). now constructor.
Qed.
Lemma good_add b defs d : good_defs defs = true -> def_ok false d = true -> good_def d = true -> good_defs (add_if b defs d) = true.
Proof. destruct b; [apply good_ensure|trivial]. Qed.
Lemma del_in {K V} (eqb : K -> K -> bool) (l : list (K * V)) k p : In p (ddel eqb l k) -> In p l.
Proof.
  unfold ddel. induction l as [|[a v] l IH]; [trivial|]. cbn. destruct (eqb a k); cbn; intros H; tauto.
Qed.
Lemma good_delete defs n : good_defs defs = true -> good_defs (cdel defs n) = true.
Proof.
  intros G. pose proof (good_defs_nodup _ G) as ND. unfold good_defs, defs_ok in *. splitb.
  repeat match goal with H : forallb _ _ = true |- _ => rewrite forallb_forall in H end. splitg.
  - rewrite forallb_forall. intros p I. apply del_in in I. auto.
  - apply (nodup_by_intro _ cspec), (del_nodup _), ND.
  - rewrite forallb_forall. intros p I. apply del_in in I. auto.
Qed.
Lemma good_names : forallb (fun d => def_ok false d && good_def d) [long_node; long_message; long_signal; long_envvar; def_baudrate; def_cycle_time; def_frame_format; def_brs] = true.
Proof. vm_compute. reflexivity. Qed.
Lemma small_ok z : Z.abs z <= 2 ^ 53 -> f_finite (f_int z) = true. Proof. intros H. apply (int_finite z H). Qed.
Lemma start_ok : def_ok false def_start_value = true /\ good_def def_start_value = true.
Proof.
  split; [|vm_compute; reflexivity]. unfold def_ok. splitg; try reflexivity. cbn [def_start_value d_default d_type opt_ok].
  unfold default_ok. change (is_int_type (txt "FLOAT")) with false. change (is_float_type (txt "FLOAT")) with true. cbn iota. apply small_ok. lia.
Qed.

Record goods db : Prop := {
  gd_version : opt_ok plain_text (db_version db) = true;
  gd_defs : good_defs (db_definitions db) = true;
  gd_real : real_defs (db_definitions db) = true;
  gd_rdefs : defs_ok true (db_rel_definitions db) = true;
  gd_rreal : real_defs (db_rel_definitions db) = true;
  gd_nodes : forall n, In n (db_nodes db) -> good_node (db_definitions db) n = true;
  gd_node_names : NoDup (map n_name (db_nodes db));
  gd_count : zlen (db_nodes db) <= 10000;
  gd_envvars : forall e, In e (db_envvars db) -> good_envvar (db_definitions db) e = true;
  gd_env_names : NoDup (map fst (db_envvars db));
  gd_messages : forall m, In m (db_messages db) -> good_message db m = true;
  gd_message_names : NoDup (map m_name (db_messages db));
  gd_frames : NoDup (map frame (db_messages db));
  gd_bus : good_bus db = true;
  gd_attrs : good_attrs (db_definitions db) None (db_attrs db) = true;
  gd_tables : forall t, In t (db_tables db) -> fit_table t = true;
  gd_table_names : NoDup (map fst (db_tables db));
  gd_sig_rels : good_sig_rels db = true;
  gd_msg_rels : good_msg_rels db = true }.
Lemma good_goods db : good db = true -> goods db.
Proof.
  unfold good, good_rel_defs, good_nodes, good_envvars, good_messages. intros H. splitb.
  repeat match goal with H : forallb (good_node _) _ = true |- _ => rewrite forallb_forall in H | H : forallb (good_envvar _) _ = true |- _ => rewrite forallb_forall in H
         | H : forallb (good_message _) _ = true |- _ => rewrite forallb_forall in H | H : forallb fit_table _ = true |- _ => rewrite forallb_forall in H
         | H : (zlen _ <=? _) = true |- _ => apply Z.leb_le in H end.
  constructor; try assumption; try (apply (nodup_by_spec _ cspec); assumption); apply (nodup_by_spec _ zspec); assumption.
Qed.
Lemma env_names db : goods db -> map (fun e => e_name (snd e)) (db_envvars db) = map fst (db_envvars db).
Proof.
  intros H. apply map_ext_in. intros e I. apply (gd_envvars _ H) in I. unfold good_envvar in I. splitb. symmetry. apply chars_eqb_eq. assumption.
Qed.
Lemma good_signals_nodup db m : goods db -> In m (db_messages db) -> NoDup (names_of m).
Proof.
  intros H I. apply (gd_messages _ H) in I. unfold good_message in I. splitb. apply (nodup_by_spec _ cspec). assumption.
Qed.
Lemma rel_names_in db m p : goods db -> In m (db_messages db) -> In p (db_sig_rels db) -> fst p = frame m ->
  NoDup (map fst (snd p)) /\ ((forall n, In n (map fst (snd p)) -> In n (names_of m)) \/ forallb is_short (names_of m) = true).
Proof.
  intros H I J E. pose proof (gd_sig_rels _ H) as S. unfold good_sig_rels in S. apply andb_true_iff in S. destruct S as [S _]. rewrite forallb_forall in S. specialize (S p J). splitb.
  split; [apply (nodup_by_spec _ cspec); assumption|]. match goal with H : good_rel_names _ _ _ = true |- _ => rename H into R end.
  unfold good_rel_names in R. rewrite forallb_forall in R. specialize (R m I). rewrite E, Z.eqb_refl in R. cbn [negb orb] in R. apply orb_true_iff in R. destruct R as [R|R]; [left|right].
  - intros n K. rewrite forallb_forall in R. apply chars_in_iff, R, K.
  - unfold names_of. rewrite forallb_forall in *. intros x K. apply in_map_iff in K. destruct K as (s & <- & K). apply R, K.
Qed.
Lemma goods_named db : goods db -> named_well shorten db.
Proof.
  intros H. constructor; try (apply H).
  - apply good_named, H.
  - intros m I. apply (good_signals_nodup _ _ H I).
  - intros m g n I J K. apply (gd_messages _ H) in I. unfold good_message in I. splitb. destruct (m_groups m) as [gs|]; [|destruct J]. cbn [opt_ok or_empty] in *.
    match goal with H : forallb _ gs = true |- _ => rewrite forallb_forall in H; specialize (H g J) end. splitb.
    match goal with H : forallb _ (g_signals g) = true |- _ => rewrite forallb_forall in H; apply chars_in_iff, H, K end.
  - rewrite (env_names _ H). apply H.
  - pose proof (gd_sig_rels _ H) as S. unfold good_sig_rels in S. apply andb_true_iff in S. destruct S as [_ S]. apply (nodup_by_spec _ zspec), S.
  - intros m p I J E. destruct (rel_names_in _ _ _ H I J E) as [N [A|A]].
    + apply sh_nodup; [apply (good_signals_nodup _ _ H I)|exact A|exact N].
    + rewrite (map_ext _ (fun x => x)); [rewrite map_id; exact N|]. intros x. apply sh_all_short; [apply (good_signals_nodup _ _ H I)|exact A].
Qed.

(** ** No special characters *)
Lemma rename_same n m : rename_node_in n n m = m.
Proof. rewrite rename_node_as. apply ren_nodes_in_id. intros x. destruct (cspec x n); congruence. Qed.
Lemma special_nodes_same l ms : (forall n, In n l -> name_ok (n_name n) = true) -> special_nodes l ms = Ok (l, ms).
Proof.
  revert ms. induction l as [|n l IH]; intros ms H; [reflexivity|]. cbn [special_nodes]. rewrite name_dbc by (apply H; left; reflexivity). cbn [bind].
  rewrite (map_ext _ (fun m => m)) by apply rename_same. rewrite map_id, IH by (intros x I; apply H; right; exact I). destruct n. reflexivity.
Qed.
Lemma mapM_same {A} (f : A -> result A) l : (forall x, In x l -> f x = Ok x) -> mapM f l = Ok l.
Proof. intros H. rewrite (mapM_all _ (fun x => x)) by exact H. rewrite map_id. reflexivity. Qed.
Lemma special_same db : goods db -> remove_special_chars db = Ok db.
Proof.
  intros H. unfold remove_special_chars. rewrite special_nodes_same; [cbn [bind fst snd]|].
  - rewrite mapM_same; [destruct db; reflexivity|]. intros m I. pose proof (gd_messages _ H m I) as G. unfold good_message in G. splitb. unfold special_message.
    rewrite name_dbc by assumption. cbn [bind].
    match goal with H : forallb (good_signal _) _ = true |- _ => rewrite forallb_forall in H; rename H into GS end.
    assert (NS : forall s, In s (m_signals m) -> name_ok (s_name s) = true). { intros s J. specialize (GS s J). unfold good_signal in GS. splitb. assumption. }
    rewrite mapM_same. 2: { intros s J. rewrite name_dbc by apply NS, J. cbn [bind]. destruct s; reflexivity. }
    cbn [bind]. destruct (m_groups m) as [gs|] eqn:EG.
    + rewrite mapM_same; [cbn [bind]; destruct m; cbn in *; subst; reflexivity|]. intros g J. unfold special_group. cbn [opt_ok] in *.
      match goal with H : forallb _ gs = true |- _ => rewrite forallb_forall in H; specialize (H g J) end. splitb.
      rewrite name_dbc by assumption. cbn [bind]. rewrite mapM_same; [destruct g; reflexivity|]. intros n K. apply name_dbc.
      match goal with H : forallb _ (g_signals g) = true |- _ => rewrite forallb_forall in H; specialize (H n K); apply chars_in_iff in H; apply in_map_iff in H; destruct H as (s & <- & S) end.
      apply NS, S.
    + cbn [bind]. destruct m; cbn in *; subst; reflexivity.
  - intros n I. apply (gd_nodes _ H) in I. unfold good_node in I. splitb. assumption.
Qed.

(** ** The definitions that are written *)
Definition D2 db : definitions := dump_definitions (renamed shorten db).
Definition has_cycle db : bool := existsb (fun m => some (m_cycle_time m)) (db_messages db).
Definition has_initial db : bool := existsb (fun m => existsb (fun s => some (s_initial s)) (m_signals m)) (db_messages db).
Lemma D2_eq db : D2 db =
  let d := add_if (has_cycle db) (ren_definitions shorten db) def_cycle_time in
  let d := add_if (has_initial db) d def_start_value in
  let d := if some (one_baudrate db) then ensure d def_baudrate else cdel d (txt "Baudrate") in
  add_if (is_can_fd db) (add_if (is_can_fd db) d def_frame_format) def_brs.
Proof.
  unfold D2, dump_definitions. cbn [renamed db_definitions db_messages db_attrs db_buses].
  change (is_can_fd (renamed shorten db)) with (is_can_fd db). change (one_baudrate (renamed shorten db)) with (one_baudrate db).
  rewrite !existsb_map. fold (has_cycle db).
  assert (E : existsb (fun x => existsb (fun s => some (s_initial s)) (m_signals (ren_message shorten db x))) (db_messages db) = has_initial db).
  { apply existsb_ext'. intros m. unfold ren_message, ren_signals, ren_name, ren_nodes_in, with_signals, with_message_name. cbn [m_signals]. rewrite !existsb_map. reflexivity. }
  rewrite E. cbn zeta. destruct (is_can_fd db); reflexivity.
Qed.
Definition sound d : Prop := def_ok false d = true /\ good_def d = true.
Lemma sounds : Forall sound [long_node; long_message; long_signal; long_envvar; def_baudrate; def_cycle_time; def_frame_format; def_brs; def_start_value].
Proof.
  pose proof good_names as G. cbn [forallb] in G. splitb. repeat constructor; try assumption; apply start_ok.
Qed.
Lemma sound_nth i d : nth_error [long_node; long_message; long_signal; long_envvar; def_baudrate; def_cycle_time; def_frame_format; def_brs; def_start_value] i = Some d -> sound d.
Proof. intros E. apply nth_error_In in E. pose proof sounds as S. rewrite Forall_forall in S. apply S, E. Qed.
Lemma sound_node : sound long_node. Proof. exact (sound_nth 0 _ eq_refl). Qed.
Lemma sound_message : sound long_message. Proof. exact (sound_nth 1 _ eq_refl). Qed.
Lemma sound_signal : sound long_signal. Proof. exact (sound_nth 2 _ eq_refl). Qed.
Lemma sound_envvar : sound long_envvar. Proof. exact (sound_nth 3 _ eq_refl). Qed.
Lemma sound_baudrate : sound def_baudrate. Proof. exact (sound_nth 4 _ eq_refl). Qed.
Lemma sound_cycle : sound def_cycle_time. Proof. exact (sound_nth 5 _ eq_refl). Qed.
Lemma sound_format : sound def_frame_format. Proof. exact (sound_nth 6 _ eq_refl). Qed.
Lemma sound_brs : sound def_brs. Proof. exact (sound_nth 7 _ eq_refl). Qed.
Lemma sound_start : sound def_start_value. Proof. exact (sound_nth 8 _ eq_refl). Qed.
Lemma add_sound b defs d : good_defs defs = true -> sound d -> good_defs (add_if b defs d) = true.
Proof. intros G [O1 O2]. apply good_add; assumption. Qed.
Lemma D1_good db : goods db -> good_defs (ren_definitions shorten db) = true.
Proof.
  intros H. unfold ren_definitions. cbn zeta. apply add_sound; [|exact sound_envvar]. apply add_sound; [|exact sound_signal]. apply add_sound; [|exact sound_message].
  apply add_sound; [|exact sound_node]. exact (gd_defs _ H).
Qed.
Lemma inner_good db : goods db -> good_defs (add_if (has_initial db) (add_if (has_cycle db) (ren_definitions shorten db) def_cycle_time) def_start_value) = true.
Proof. intros H. apply add_sound; [|exact sound_start]. apply add_sound; [|exact sound_cycle]. apply D1_good, H. Qed.
Lemma D2_good db : goods db -> good_defs (D2 db) = true.
Proof.
  intros H. rewrite D2_eq. cbn zeta. apply add_sound; [|exact sound_brs]. apply add_sound; [|exact sound_format].
  pose proof (inner_good _ H) as B. destruct (some (one_baudrate db)); [|apply good_delete, B].
  apply good_ensure; [exact B|apply sound_baudrate|apply sound_baudrate].
Qed.
Lemma ensured_get defs d x : cget defs (d_name d) = Some x -> ensured defs d = x.
Proof. unfold ensured. now intros ->. Qed.
Lemma get_add_kept b defs d n x : cget defs n = Some x -> cget (add_if b defs d) n = Some x.
Proof. intros G. rewrite get_add. destruct b; [|exact G]. cbn [andb]. destruct (cspec (d_name d) n) as [<-|]; [|exact G]. f_equal. apply ensured_get, G. Qed.
Lemma get_add_other b defs d n : d_name d <> n -> cget (add_if b defs d) n = cget defs n.
Proof. intros N. rewrite get_add. rewrite (chars_ne _ _ N), andb_false_r. reflexivity. Qed.
Lemma get_cdel {V} (l : list (chars * V)) k n : NoDup (map fst l) -> cget (cdel l k) n = if chars_eqb k n then None else cget l n.
Proof.
  intros ND. unfold cget, cdel. rewrite (get_del _ cspec) by exact ND. reflexivity.
Qed.
Lemma D1_kept db n x : cget (db_definitions db) n = Some x -> cget (ren_definitions shorten db) n = Some x.
Proof. intros G. unfold ren_definitions. repeat apply get_add_kept. exact G. Qed.
Definition step_baud db defs : definitions := if some (one_baudrate db) then ensure defs def_baudrate else cdel defs (txt "Baudrate").
Lemma baud_other db defs n : NoDup (map fst defs) -> n <> txt "Baudrate" -> cget (step_baud db defs) n = cget defs n.
Proof.
  intros ND N. unfold step_baud. destruct (some (one_baudrate db)).
  - apply (get_add_other true). intros E. apply N. symmetry. exact E.
  - rewrite get_cdel by exact ND. rewrite chars_ne by congruence. reflexivity.
Qed.
Lemma D2_baud db : D2 db = add_if (is_can_fd db) (add_if (is_can_fd db)
    (step_baud db (add_if (has_initial db) (add_if (has_cycle db) (ren_definitions shorten db) def_cycle_time) def_start_value)) def_frame_format) def_brs.
Proof. rewrite D2_eq. reflexivity. Qed.
Lemma inner_nodup db : goods db -> NoDup (map fst (add_if (has_initial db) (add_if (has_cycle db) (ren_definitions shorten db) def_cycle_time) def_start_value)).
Proof. intros H. apply good_defs_nodup, inner_good, H. Qed.
Lemma D2_kept db n x : goods db -> n <> txt "Baudrate" -> cget (db_definitions db) n = Some x -> cget (D2 db) n = Some x.
Proof.
  intros H N G. rewrite D2_baud. do 2 apply get_add_kept. rewrite baud_other; [|apply inner_nodup, H|exact N]. do 2 apply get_add_kept. apply D1_kept, G.
Qed.
Definition added : list chars :=
  [txt "SystemNodeLongSymbol"; txt "SystemMessageLongSymbol"; txt "SystemSignalLongSymbol"; txt "SystemEnvVarLongSymbol"; txt "GenMsgCycleTime"; txt "GenSigStartValue";
   txt "Baudrate"; txt "VFrameFormat"; txt "CANFD_BRS"].
Lemma D2_plain db n : goods db -> ~ In n added -> cget (D2 db) n = cget (db_definitions db) n.
Proof.
  intros H N. unfold added in N. cbn [In] in N. rewrite D2_baud. rewrite !get_add_other; [|intros E; apply N; rewrite <- E; tauto..].
  rewrite baud_other; [|apply inner_nodup, H|intros E; apply N; rewrite E; tauto].
  rewrite !get_add_other; [|intros E; apply N; rewrite <- E; tauto..]. unfold ren_definitions. rewrite !get_add_other; [reflexivity|intros E; apply N; rewrite <- E; tauto..].
Qed.
Lemma D2_of_D1 db n x : goods db -> n <> txt "Baudrate" -> cget (ren_definitions shorten db) n = Some x -> cget (D2 db) n = Some x.
Proof.
  intros H N G. rewrite D2_baud. do 2 apply get_add_kept. rewrite baud_other; [|apply inner_nodup, H|exact N]. do 2 apply get_add_kept. exact G.
Qed.
Lemma get_added defs d : cget (add_if true defs d) (d_name d) = Some (ensured defs d).
Proof. rewrite get_add, chars_eqb_refl. reflexivity. Qed.
Lemma D2_long_node db : goods db -> changes (node_short shorten db) n_name (db_nodes db) = true -> cget (D2 db) (txt "SystemNodeLongSymbol") = Some (ensured (db_definitions db) long_node).
Proof. intros H C. apply D2_of_D1; [exact H|discriminate|]. unfold ren_definitions. rewrite C. do 3 apply get_add_kept. apply get_added. Qed.
Lemma D2_long_message db : goods db -> changes (message_short shorten db) m_name (db_messages db) = true -> cget (D2 db) (txt "SystemMessageLongSymbol") = Some (ensured (db_definitions db) long_message).
Proof.
  intros H C. apply D2_of_D1; [exact H|discriminate|]. unfold ren_definitions. rewrite C. do 2 apply get_add_kept.
  rewrite (get_added _ long_message : cget _ (txt "SystemMessageLongSymbol") = _). rewrite add_if_other by discriminate. reflexivity.
Qed.
Lemma D2_long_signal db : goods db -> existsb (fun m => changes (sh shorten (names_of m)) s_name (m_signals m)) (db_messages db) = true ->
  cget (D2 db) (txt "SystemSignalLongSymbol") = Some (ensured (db_definitions db) long_signal).
Proof.
  intros H C. apply D2_of_D1; [exact H|discriminate|]. unfold ren_definitions. rewrite C. apply get_add_kept.
  rewrite (get_added _ long_signal : cget _ (txt "SystemSignalLongSymbol") = _). rewrite !add_if_other by discriminate. reflexivity.
Qed.
Lemma D2_long_envvar db : goods db -> changes (envvar_short shorten db) (fun p => e_name (snd p)) (db_envvars db) = true ->
  cget (D2 db) (txt "SystemEnvVarLongSymbol") = Some (ensured (db_definitions db) long_envvar).
Proof.
  intros H C. apply D2_of_D1; [exact H|discriminate|]. unfold ren_definitions. rewrite C.
  rewrite (get_added _ long_envvar : cget _ (txt "SystemEnvVarLongSymbol") = _). rewrite !add_if_other by discriminate. reflexivity.
Qed.
Lemma D1_other db n : ~ In n added -> cget (ren_definitions shorten db) n = cget (db_definitions db) n.
Proof. intros N. unfold added in N. cbn [In] in N. unfold ren_definitions. rewrite !get_add_other; [reflexivity|intros E; apply N; rewrite <- E; tauto..]. Qed.
Lemma D2_cycle db : goods db -> has_cycle db = true -> exists d, cget (D2 db) (txt "GenMsgCycleTime") = Some d.
Proof.
  intros H C. exists (ensured (ren_definitions shorten db) def_cycle_time). rewrite D2_baud, C. do 2 apply get_add_kept. rewrite baud_other; [|rewrite <- C; apply inner_nodup, H|discriminate].
  apply get_add_kept. apply (get_added _ def_cycle_time).
Qed.
Lemma D2_start db : goods db -> has_initial db = true -> exists d, cget (D2 db) (txt "GenSigStartValue") = Some d.
Proof.
  intros H C. eexists. rewrite D2_baud, C. do 2 apply get_add_kept. rewrite baud_other; [|rewrite <- C; apply inner_nodup, H|discriminate].
  apply (get_added _ def_start_value).
Qed.
Lemma D2_format db : goods db -> cget (D2 db) (txt "VFrameFormat") =
  match cget (db_definitions db) (txt "VFrameFormat") with Some d => Some d | None => if is_can_fd db then Some def_frame_format else None end.
Proof.
  intros H. rewrite D2_baud. rewrite get_add_other by discriminate. rewrite get_add. change (chars_eqb (d_name def_frame_format) (txt "VFrameFormat")) with true. rewrite andb_true_r.
  set (d := step_baud _ _).
  assert (E : cget d (txt "VFrameFormat") = cget (db_definitions db) (txt "VFrameFormat")).
  { subst d. rewrite baud_other; [|apply inner_nodup, H|discriminate]. rewrite !get_add_other by discriminate. unfold ren_definitions. rewrite !get_add_other by discriminate. reflexivity. }
  rewrite E. destruct (is_can_fd db).
  - unfold ensured. change (d_name def_frame_format) with (txt "VFrameFormat"). rewrite E. destruct (cget (db_definitions db) (txt "VFrameFormat")); reflexivity.
  - destruct (cget (db_definitions db) (txt "VFrameFormat")); reflexivity.
Qed.
Lemma D2_baudrate db : goods db -> match one_baudrate db with Some _ => exists d, cget (D2 db) (txt "Baudrate") = Some d | None => cget (D2 db) (txt "Baudrate") = None end.
Proof.
  intros H. rewrite D2_baud. rewrite !get_add_other by discriminate. unfold step_baud. destruct (one_baudrate db); cbn [some].
  - eexists. apply (get_added _ def_baudrate).
  - rewrite get_cdel by (apply inner_nodup, H). reflexivity.
Qed.
(** Whether initial values are integers *)
Lemma int_start_D2 db : goods db -> has_initial db = true -> int_start (D2 db) = int_start (db_definitions db).
Proof.
  intros H C. unfold int_start. destruct (cget (db_definitions db) (txt "GenSigStartValue")) as [d|] eqn:G.
  - assert (K : txt "GenSigStartValue" <> txt "Baudrate") by discriminate. rewrite (D2_kept _ _ _ H K G). reflexivity.
  - rewrite D2_baud, C. rewrite !get_add_other by discriminate. rewrite baud_other; [|rewrite <- C; apply inner_nodup, H|discriminate].
    rewrite (get_added _ def_start_value : cget _ (txt "GenSigStartValue") = _). unfold ensured. change (d_name def_start_value) with (txt "GenSigStartValue").
    rewrite get_add_other by discriminate. unfold ren_definitions. rewrite !get_add_other by discriminate. rewrite G. reflexivity.
Qed.
End Good.
