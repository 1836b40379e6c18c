(** DbcGoodRead: a good database fits a DBC file, and what is read from that file is the same database. *)
From Coq Require Import Ascii Permutation.
From Verif Require Import Base CSource CNames DictLemmas Regex DecText DbcNames Prop_DbcNames DbcToken DbcLex DbcStmt DbcPieces DbcParse DbcGrammar DbcDump DbcLoad DbcTables DbcFit DbcWrite DbcRead DbcView DbcCore DbcSame DbcShort DbcGood DbcGoodFit.
Local Open Scope string_scope.
Local Open Scope Z_scope.
Local Open Scope list_scope.

Section GoodRead.
Context {FL : Floats} {LW : FloatLaws FL} (shorten : bool).
Implicit Types (db : database) (m : dmessage) (s : dsignal) (defs : definitions) (d : definition) (a : attrs).
Notation D2 := (D2 shorten).
Notation R := (renamed shorten).

(** ** Attributes of the database *)
Lemma baudrate_def db d : goods db -> cget (D2 db) (txt "Baudrate") = Some d -> d_name d = txt "Baudrate" /\ is_int_type (d_type d) = true.
Proof.
  intros H G. destruct (good_defs_in _ _ _ (D2_good shorten _ H) G) as (N & _). split; [exact N|].
  assert (S : (is_int_type (d_type d) && kind_eqb (d_kind d) None) = true).
  { apply (good_standard (D2 db) "Baudrate" (fun d => is_int_type (d_type d) && kind_eqb (d_kind d) None)); [apply D2_good, H| |exact G]. cbn [standard In]. do 7 right. left. reflexivity. }
  apply andb_true_iff in S. apply S.
Qed.
Lemma plain_attrs db : goods db -> attrs_ok (D2 db) None (cdel (db_attrs db) (txt "Baudrate")) = true.
Proof.
  intros H. pose proof (gd_attrs _ H) as G. pose proof (good_attrs_nodup _ _ _ G) as ND.
  assert (N2 : NoDup (map fst (cdel (db_attrs db) (txt "Baudrate")))) by (apply (del_nodup _), ND).
  unfold attrs_ok. apply andb_true_iff. split; [|apply (nodup_by_intro _ cspec), N2].
  rewrite forallb_forall. intros [n y] I. apply good_attr_ok. apply (in_get _ cspec) in I; [|exact N2]. change (cget (cdel (db_attrs db) (txt "Baudrate")) n = Some y) in I.
  rewrite get_cdel in I by exact ND. destruct (cspec (txt "Baudrate") n) as [|NE]; [discriminate|]. apply grow_attr; [exact H|congruence|]. exact (good_attrs_get _ _ _ _ _ G I).
Qed.
Definition written_attrs db (a : attrs) : Prop :=
  database_attrs (D2 db) (R db) = Ok a /\ attrs_ok (D2 db) None a = true /\ (forall n, n <> txt "Baudrate" -> cget a n = cget (db_attrs db) n) /\
  option_map a_value (cget (vattrs (D2 db) a) (txt "Baudrate")) = option_map AInt (one_baudrate db).
Lemma attributes_written db : goods db -> exists a, written_attrs db a.
Proof.
  intros H. pose proof (good_attrs_nodup _ _ _ (gd_attrs _ H)) as ND. pose proof (D2_baudrate shorten _ H) as B. unfold written_attrs, database_attrs.
  change (one_baudrate (R db)) with (one_baudrate db). change (db_attrs (R db)) with (db_attrs db). destruct (one_baudrate db) as [b|].
  - destruct B as (d & G). rewrite G. destruct (baudrate_def _ _ H G) as (N & T). eexists. split; [reflexivity|]. split; [|split].
    + apply attrs_ok_set; [apply plain_attrs, H|]. unfold attr_ok. cbn [fst snd a_def a_value has_kind]. rewrite N, G, (retype_int _ _ T), eqb_reflx. reflexivity.
    + intros n NE. rewrite get_cset, get_cdel by exact ND. rewrite chars_ne by congruence. reflexivity.
    + rewrite vattrs_get, get_cset, chars_eqb_refl. unfold view_attr. cbn [option_map fst snd a_value]. rewrite G, (retype_int _ _ T). reflexivity.
  - eexists. split; [reflexivity|]. split; [apply plain_attrs, H|]. split.
    + intros n NE. rewrite get_cdel by exact ND. rewrite chars_ne by congruence. reflexivity.
    + rewrite vattrs_get, get_cdel by exact ND. rewrite chars_eqb_refl. reflexivity.
Qed.

(** ** Relations *)
Lemma attrs_any defs k a : attrs_ok defs k a = true -> attrs_ok defs None a = true.
Proof.
  unfold attrs_ok. intros H. splitb. splitg; [|assumption]. rewrite forallb_forall in *. intros x I.
  match goal with H : forall x, In x a -> _ |- _ => specialize (H x I); unfold attr_ok in H |- *; cbn [has_kind]; splitb end. splitg; assumption || reflexivity.
Qed.
Lemma node_rels_fit defs k l : good_node_rels defs k l = true -> fit_node_rels defs l = true.
Proof.
  unfold good_node_rels, fit_node_rels. intros H. splitb. splitg; try assumption. rewrite forallb_forall in *. intros p I.
  match goal with H : forall x, In x l -> _ |- _ => specialize (H p I) end. splitb. unfold fit_rel. splitg; try assumption. eapply attrs_any, good_attrs_ok. eassumption.
Qed.
Lemma msg_rels_fit db : goods db -> fit_msg_rels (db_rel_definitions db) (db_msg_rels db) = true.
Proof.
  intros H. pose proof (gd_msg_rels _ H) as G. unfold good_msg_rels, fit_msg_rels in *. splitb. splitg; [|assumption]. rewrite forallb_forall in *. intros p I. eapply node_rels_fit; eauto.
Qed.
Lemma rels_nodup db : goods db -> NoDup (map fst (db_sig_rels db)).
Proof. intros H. pose proof (gd_sig_rels _ H) as G. unfold good_sig_rels in G. splitb. apply (nodup_by_spec _ zspec). assumption. Qed.
Lemma rels_in db p : goods db -> In p (db_sig_rels db) ->
  (forall q, In q (snd p) -> name_ok (fst q) = true /\ good_node_rels (db_rel_definitions db) (Some "BU_SG_REL_") (snd q) = true) /\ NoDup (map fst (snd p)) /\ nonempty (snd p) = true.
Proof.
  intros H I. pose proof (gd_sig_rels _ H) as G. unfold good_sig_rels in G. apply andb_true_iff in G. destruct G as [G _]. rewrite forallb_forall in G. specialize (G p I). splitb.
  split; [|split; [apply (nodup_by_spec _ cspec); assumption|assumption]]. intros q J.
  match goal with H : forallb _ (snd p) = true |- _ => rewrite forallb_forall in H; specialize (H q J); apply andb_true_iff in H; exact H end.
Qed.
Notation rn db := (name_in frame (fun m => sh shorten (names_of m)) (db_messages db)).
Lemma rn_cases db fid : (exists m, In m (db_messages db) /\ frame m = fid /\ forall n, rn db fid n = sh shorten (names_of m) n) \/
  ((forall n, rn db fid n = n) /\ forall m, In m (db_messages db) -> frame m <> fid).
Proof.
  unfold name_in. destruct (find (fun m => frame m =? fid) (db_messages db)) as [m|] eqn:F.
  - apply find_some in F. destruct F as [I E]. apply Z.eqb_eq in E. left. exists m. auto.
  - right. split; [reflexivity|]. intros m I. apply (find_none _ _ F) in I. apply Z.eqb_neq, I.
Qed.
Lemma rn_nodup db p : goods db -> In p (db_sig_rels db) -> NoDup (map (rn db (fst p)) (map fst (snd p))).
Proof.
  intros H I. destruct (rels_in _ _ H I) as (_ & N & _). destruct (rn_cases db (fst p)) as [(m & J & E & K)|[K _]]; rewrite (map_ext _ _ K).
  - apply (nw_rel_names _ _ (goods_named shorten _ H) m p J I). auto.
  - rewrite map_id. exact N.
Qed.
Lemma sig_rels_fit db : goods db -> fit_sig_rels (db_rel_definitions db) (db_sig_rels (R db)) = true.
Proof.
  intros H. change (db_sig_rels (R db)) with (ren_rels shorten (db_messages db) (db_sig_rels db)). unfold ren_rels, rename_frames, fit_sig_rels. apply andb_true_iff. split.
  - rewrite forallb_forall. intros x I. apply in_map_iff in I. destruct I as (p & <- & I). cbn [snd]. destruct (rels_in _ _ H I) as (A & N & NE). unfold fit_frame_rels. splitg.
    + rewrite forallb_forall. intros y J. apply in_map_iff in J. destruct J as (q & <- & J). cbn [fst snd]. destruct (A q J) as (B1 & B2). splitg; [|eapply node_rels_fit; eassumption].
      destruct (rn_cases db (fst p)) as [(m & K & _ & E)|[E _]]; rewrite E; [|exact B1]. apply sh_name_ok; [exact (good_signals_nodup _ _ H K)|exact B1].
    + apply (nodup_by_intro _ cspec). rewrite map_map. cbn [fst]. rewrite <- (map_map fst (rn db (fst p))). apply rn_nodup; assumption.
    + destruct (snd p); [discriminate|reflexivity].
  - apply (nodup_by_intro _ zspec). rewrite map_map. cbn [fst]. apply rels_nodup, H.
Qed.
Lemma ren_frame db m : frame (ren_message shorten db m) = frame m. Proof. reflexivity. Qed.
Theorem good_fit db : goods db -> fit (R db) = true.
Proof.
  intros H. unfold fit. fold (D2 db). cbn [db_version db_nodes db_buses db_messages db_attrs db_definitions db_envvars db_tables db_msg_rels db_rel_definitions renamed].
  assert (FA : fit_attributes (D2 db) (R db) = true). { unfold fit_attributes. destruct (attributes_written _ H) as (a & E & O & _). rewrite E. exact O. }
  pose proof (sig_rels_fit _ H) as FS. cbn [db_sig_rels renamed] in FS. splitg.
  - exact (gd_version _ H).
  - rewrite forallb_forall. intros x I. apply in_map_iff in I. destruct I as (n & <- & I). apply node_fits; assumption.
  - apply (nodup_by_intro _ cspec). rewrite map_map. unfold ren_node. cbn [n_name]. rewrite <- (map_map n_name (node_short shorten db)). apply sh_nodup; [exact (gd_node_names _ H)|trivial|exact (gd_node_names _ H)].
  - pose proof (gd_bus _ H) as B. unfold good_bus in B. destruct (db_buses db) as [|b [|]]; [reflexivity| |discriminate]. splitb. cbn [forallb]. rewrite andb_true_r. assumption.
  - rewrite forallb_forall. intros x I. apply in_map_iff in I. destruct I as (m & <- & I). apply message_fits; assumption.
  - apply (nodup_by_intro _ zspec). rewrite map_map. rewrite (map_ext _ _ (ren_frame db)). exact (gd_frames _ H).
  - exact FA.
  - apply good_defs_ok, D2_good, H.
  - exact (gd_rdefs _ H).
  - rewrite forallb_forall. intros x I. apply in_map_iff in I. destruct I as (p & <- & I). apply envvar_fits; assumption.
  - apply (nodup_by_intro _ cspec). rewrite map_map. unfold ren_envvar, with_envvar_name. cbn [snd e_name]. rewrite <- (map_map (fun p : chars * envvar => e_name (snd p)) (envvar_short shorten db)).
    assert (N : NoDup (map (fun p : chars * envvar => e_name (snd p)) (db_envvars db))) by (rewrite (env_names _ H); exact (gd_env_names _ H)). apply sh_nodup; [exact N|trivial|exact N].
  - rewrite forallb_forall. exact (gd_tables _ H).
  - apply (nodup_by_intro _ cspec). exact (gd_table_names _ H).
  - exact FS.
  - apply msg_rels_fit, H.
Qed.

(** ** Names *)
Lemma good_fits db : goods db -> fits (R db). Proof. intros H. apply fit_fits, good_fit, H. Qed.
Lemma object_cases db k a : In (k, a) (objects db) -> match k with
  | KNode n => exists x, In x (db_nodes db) /\ n = n_name x
  | KSig z n => exists m s, In m (db_messages db) /\ In s (m_signals m) /\ z = frame m /\ n = s_name s
  | _ => True end.
Proof.
  unfold objects. intros [E|I]; [injection E as <- <-; exact Logic.I|]. apply in_app_iff in I. destruct I as [I|I]; [apply in_map_iff in I; destruct I as (e & E & I); injection E as <- <-; exact Logic.I|].
  apply in_app_iff in I. destruct I as [I|I]; [apply in_map_iff in I; destruct I as (n & E & I); injection E as <- <-; eauto|].
  apply in_flat_map in I. destruct I as (m & I & J). unfold msg_objects in J. destruct J as [E|J]; [injection E as <- <-; exact Logic.I|].
  apply in_map_iff in J. destruct J as (s & E & J). injection E as <- <-. apply (proj1 (dump_order_in _ _)) in J. exists m, s. auto.
Qed.
Lemma no_object db k : ~ In k (map fst (objects db)) -> attrs_of (vobjects db) k = [].
Proof.
  intros N. unfold attrs_of. rewrite <- vobjects_keys in N. apply (get_none _ ospec) in N. rewrite N. reflexivity.
Qed.
Lemma vname_in db n : goods db -> In n (db_nodes db) -> vname (R db) (node_short shorten db (n_name n)) = n_name n.
Proof.
  intros H I. destruct (node_back shorten _ _ H I) as (N & _). unfold vname, node_long.
  change (node_short shorten db (n_name n)) with (n_name (ren_node (node_short shorten db) (ensured (db_definitions db) long_node) n)) at 1.
  rewrite attrs_node; [exact N|apply good_fits, H|]. apply (in_map (ren_node (node_short shorten db) (ensured (db_definitions db) long_node))), I.
Qed.
Lemma vname_out db n : ~ In n (map (node_short shorten db) (map n_name (db_nodes db))) -> vname (R db) n = n.
Proof.
  intros N. unfold vname, node_long. rewrite no_object; [reflexivity|]. intros I. apply in_map_iff in I. destruct I as ([k a] & E & I). cbn [fst] in E. subst k.
  apply object_cases in I. destruct I as (x & I & ->). apply N. apply in_map_iff in I. destruct I as (y & <- & I). rewrite map_map. apply in_map_iff. exists y. auto.
Qed.
Lemma vname_known db n : goods db -> known db n = true -> vname (R db) (node_short shorten db n) = n.
Proof.
  intros H K. destruct (known_ok _ _ K) as (_ & _ & C). destruct (in_dec (list_eq_dec ascii_dec) n (map n_name (db_nodes db))) as [I|NI].
  - apply in_map_iff in I. destruct I as (x & <- & I). apply vname_in; assumption.
  - destruct C as [I|A]; [contradiction|]. unfold node_short at 1. rewrite (sh_other shorten _ (gd_node_names _ H) _ NI). apply vname_out. intros I. apply NI.
    apply in_map_iff in I. destruct I as (x & E & I). unfold node_short in E. rewrite sh_all_short in E; [subst; exact I|exact (gd_node_names _ H)|].
    rewrite forallb_forall in *. intros y J. apply in_map_iff in J. destruct J as (z & <- & J). apply A, J.
Qed.
Lemma short_xxx : (List.length vector_xxx < 32)%nat. Proof. vm_compute. lia. Qed.
Lemma vname_xxx db : goods db -> vname (R db) vector_xxx = vector_xxx.
Proof.
  intros H. destruct (in_dec (list_eq_dec ascii_dec) vector_xxx (map n_name (db_nodes db))) as [I|NI].
  - apply in_map_iff in I. destruct I as (x & E & I). pose proof (vname_in _ _ H I) as V. rewrite E in V. unfold node_short in V. rewrite sh_short in V; [exact V|exact (gd_node_names _ H)|reflexivity].
  - apply vname_out. intros I. apply in_map_iff in I. destruct I as (n & E & I). revert E. apply (sh_not shorten _ (gd_node_names _ H) _ _ eq_refl short_xxx). intros ->. contradiction.
Qed.
Lemma ren_sig_in db m s : In s (m_signals m) -> In (ren_sig shorten db m s) (m_signals (ren_message shorten db m)).
Proof. intros I. rewrite ren_message_signals. apply in_map, I. Qed.
Lemma ren_msg_in db m : In m (db_messages db) -> In (ren_message shorten db m) (db_messages (R db)).
Proof. intros I. apply (in_map (ren_message shorten db)), I. Qed.
Lemma sig_long db m s : goods db -> In m (db_messages db) -> In s (m_signals m) ->
  long_name "SystemSignalLongSymbol" (sig_view_attrs (D2 db) (ren_sig shorten db m s)) (sh shorten (names_of m) (s_name s)) = s_name s.
Proof.
  intros H I J. pose proof (good_signal_in _ _ _ H I J) as GS. unfold good_signal in GS. splitb. unfold sig_view_attrs, long_name. rewrite vattrs_get, signal_attrs_get by (apply ren_sig_nodup; assumption).
  change (chars_eqb (txt "GenSigStartValue") (txt "SystemSignalLongSymbol")) with false. cbn iota. rewrite <- vattrs_get.
  apply (long_back shorten db "SG_"); [apply ensured_kept, good_named, H|assumption|assumption|exact (signal_long_ok shorten db m s H I J)].
Qed.
Lemma sname_in db m n : goods db -> In m (db_messages db) -> In n (names_of m) -> sname (R db) (frame m) (sh shorten (names_of m) n) = n.
Proof.
  intros H I J. unfold names_of in J. apply in_map_iff in J. destruct J as (s & <- & J). unfold sname, signal_long.
  assert (A : attrs_of (vobjects (R db)) (KSig (frame m) (sh shorten (names_of m) (s_name s))) = sig_view_attrs (D2 db) (ren_sig shorten db m s)).
  { exact (attrs_signal (R db) (ren_message shorten db m) (ren_sig shorten db m s) (good_fits _ H) (ren_msg_in _ _ I) (ren_sig_in _ _ _ J)). }
  rewrite A. apply sig_long; assumption.
Qed.
Lemma sname_out db fid n : (forall m, In m (db_messages db) -> frame m = fid -> ~ In n (map (sh shorten (names_of m)) (names_of m))) -> sname (R db) fid n = n.
Proof.
  intros N. unfold sname, signal_long. rewrite no_object; [reflexivity|]. intros I. apply in_map_iff in I. destruct I as ([k a] & E & I). cbn [fst] in E. subst k.
  apply object_cases in I. destruct I as (x & s & I & J & E & ->). apply in_map_iff in I. destruct I as (m & <- & I). rewrite ren_message_signals in J. apply in_map_iff in J. destruct J as (t & <- & J).
  apply (N m I); [rewrite E; reflexivity|]. unfold ren_sig, ren_signal, with_name_attrs, with_receivers. cbn [s_name]. apply in_map. unfold names_of. apply in_map, J.
Qed.
Lemma frame_message db m m' : goods db -> In m (db_messages db) -> In m' (db_messages db) -> frame m = frame m' -> m = m'.
Proof.
  intros H I J E. pose proof (gd_frames _ H) as N. revert I J N. generalize (db_messages db) as l. induction l as [|x l IH]; intros I J N; [destruct I|]. cbn [map] in N. inversion N; subst.
  destruct I as [->|I], J as [->|J]; [reflexivity| | |apply IH; assumption].
  - exfalso. apply H2. rewrite E. apply in_map, J.
  - exfalso. apply H2. rewrite <- E. apply in_map, I.
Qed.
Lemma sname_rel db p n : goods db -> In p (db_sig_rels db) -> In n (map fst (snd p)) -> sname (R db) (fst p) (rn db (fst p) n) = n.
Proof.
  intros H I J. destruct (rn_cases db (fst p)) as [(m & K & E & RN)|[RN NO]]; rewrite RN.
  - destruct (rel_names_in _ _ _ H K I (eq_sym E)) as [_ C]. rewrite <- E. destruct (in_dec (list_eq_dec ascii_dec) n (names_of m)) as [L|NL]; [apply sname_in; assumption|].
    destruct C as [C|C]; [exfalso; apply NL, C, J|]. pose proof (good_signals_nodup _ _ H K) as ND. rewrite (sh_all_short _ _ _ ND C). apply sname_out. intros m' K' E' L. apply NL.
    assert (M : m' = m) by (apply (frame_message db); assumption). subst m'. apply in_map_iff in L. destruct L as (x & E2 & L). rewrite (sh_all_short _ _ _ ND C) in E2. subst. exact L.
  - apply sname_out. intros m K E. exfalso. exact (NO m K E).
Qed.

(** ** Signals *)
Lemma int_start_view defs : int_start (vdefs defs) = int_start defs.
Proof. unfold int_start. rewrite vdefs_get. destruct (cget defs (txt "GenSigStartValue")) as [d|]; [|reflexivity]. cbn [option_map]. rewrite view_def_type. reflexivity. Qed.
Lemma initial_back db m s : goods db -> In m (db_messages db) -> In s (m_signals m) ->
  initial_value (sig_view_attrs (D2 db) (ren_sig shorten db m s)) = Ok (option_map (read_initial (vdefs (D2 db))) (s_initial s)).
Proof.
  intros H I J. unfold initial_value, sig_view_attrs. rewrite vattrs_get, signal_attrs_get by (apply ren_sig_nodup; assumption). rewrite chars_eqb_refl.
  change (s_initial (ren_sig shorten db m s)) with (s_initial s). destruct (s_initial s) as [v|] eqn:E; [|reflexivity]. cbn [option_map].
  destruct (start_retype shorten _ _ _ _ H I J E) as (d & G & T & RT). unfold view_attr. cbn [fst snd a_value]. rewrite G, RT. cbn [a_value]. unfold read_initial. rewrite int_start_view.
  fold (read_initial (D2 db) v). destruct (read_initial (D2 db) v); reflexivity.
Qed.
Lemma not_added n : existsb (chars_eqb n) added = false -> ~ In n added.
Proof. intros E I. assert (T : existsb (chars_eqb n) added = true). { apply existsb_exists. exists n. split; [exact I|apply chars_eqb_refl]. } congruence. Qed.
Lemma same_int_eq (x y : option aval) : same_int x y = true -> x = y.
Proof. destruct x as [[]|], y as [[]|]; try discriminate; [|reflexivity]. cbn. intros E. apply Z.eqb_eq in E. subst. reflexivity. Qed.
Lemma spn_back db m s : goods db -> In m (db_messages db) -> In s (m_signals m) -> spn_of (sig_view_attrs (D2 db) (ren_sig shorten db m s)) (vdefs (D2 db)) = Ok (s_spn s).
Proof.
  intros H I J. pose proof (good_signal_in _ _ _ H I J) as GS. unfold good_signal in GS. splitb.
  match goal with H : same_int _ _ = true |- _ => apply same_int_eq in H; rewrite H end. unfold spn_of, spn_said, sig_view_attrs.
  rewrite vattrs_get, vdefs_get, ren_sig_attrs_get by (assumption || discriminate). rewrite D2_plain; [|exact H|apply not_added; reflexivity].
  assert (T : forall d, cget (db_definitions db) (txt "SPN") = Some d -> is_int_type (d_type d) = true).
  { intros d G. apply (good_standard (db_definitions db) "SPN" (fun d => is_int_type (d_type d))); [exact (gd_defs _ H)| |exact G]. cbn [standard In]. do 9 right. left. reflexivity. }
  match goal with H : good_attrs _ _ (s_attrs s) = true |- _ => rename H into GA end.
  destruct (cget (s_attrs s) (txt "SPN")) as [x|] eqn:GX; cbn [option_map].
  - pose proof (good_attrs_get _ _ _ _ _ (grow_attrs shorten _ _ _ H GA) GX) as GO. destruct (view_good _ _ _ _ GO) as (d & _ & ->). cbn [a_value].
    pose proof (good_attrs_get _ _ _ _ _ GA GX) as GO'. unfold good_attr in GO'. cbn [fst snd] in GO'. apply andb_true_iff in GO'. destruct GO' as [_ GO'].
    destruct (cget (db_definitions db) (txt "SPN")) as [d'|]; [|discriminate]. specialize (T _ eq_refl). splitb.
    match goal with H : typed _ _ = true |- _ => unfold typed in H; rewrite T in H; cbn [orb] in H end. destruct (a_value x); try discriminate. reflexivity.
  - destruct (cget (db_definitions db) (txt "SPN")) as [d|]; [|reflexivity]. cbn [option_map]. rewrite (int_def_view _ (T _ eq_refl)). reflexivity.
Qed.
Lemma zero_text b : opt_ok num_ok b = true -> is_zero_text (or_zero_text b) = no_limit b.
Proof.
  unfold is_zero_text. destruct b as [[z|f]|]; cbn [opt_ok num_ok or_zero_text no_limit num_text]; intros O; [| |reflexivity].
  - change (txt "0") with (decimal 0). destruct (Z.eqb_spec z 0) as [->|NE]; [reflexivity|]. apply chars_ne. intros E. apply NE. apply (f_equal int_text) in E. rewrite !int_decimal in E. congruence.
  - apply chars_ne. intros E. destruct (finite_text f O) as (_ & _ & N). rewrite E in N. discriminate N.
Qed.
Lemma bound_back db m s b : goods db -> In m (db_messages db) -> In s (m_signals m) -> vbound (ren_sig shorten db m s) b = read_limit s b.
Proof.
  intros H I J. pose proof (good_signal_in _ _ _ H I J) as GS. unfold good_signal in GS. splitb. unfold vbound, unlimited, read_limit.
  change (s_min (ren_sig shorten db m s)) with (s_min s). change (s_max (ren_sig shorten db m s)) with (s_max s). rewrite !zero_text by assumption. reflexivity.
Qed.
Lemma receivers_back db l : goods db -> forallb (known db) l = true ->
  map (vname (R db)) (if only_xxx (map (node_short shorten db) l) then [] else map (node_short shorten db) l) = l.
Proof.
  intros H K. rewrite forallb_forall in K.
  assert (O : only_xxx (map (node_short shorten db) l) = false).
  { destruct l as [|n [|]]; [reflexivity| |reflexivity]. cbn [map only_xxx]. apply chars_ne. destruct (known_ok _ _ (K n (or_introl eq_refl))) as (_ & N & _).
    apply (sh_not shorten _ (gd_node_names _ H) _ _ eq_refl short_xxx). exact N. }
  rewrite O, map_map. rewrite <- (map_id l) at 2. apply map_ext_in. intros n I. apply vname_known; [exact H|apply K, I].
Qed.
Context (set_list : list Z -> list Z) (SL : forall l, NoDup (set_list l) /\ forall x, In x (set_list l) <-> In x l).
Lemma ids_back db m s ids : goods db -> In m (db_messages db) -> In s (m_signals m) -> s_mux_ids s = Some ids ->
  same_set ids (vids set_list (extended_mux (db_messages (R db))) (m_signals (ren_message shorten db m)) ids).
Proof.
  intros H I J E. unfold same_set, vids. split; [apply SL|]. intros x. rewrite (proj2 (SL _)), in_app_iff.
  pose proof (good_message_in _ _ H I) as GM. unfold good_message in GM. splitb.
  match goal with H : forallb (fit_mux _) _ = true |- _ => rewrite forallb_forall in H; specialize (H s J); rename H into FM end.
  unfold fit_mux in FM. rewrite E in FM. splitb. destruct (s_mux_signal s) as [u|]; [|discriminate]. splitb.
  rewrite ren_message_signals, filter_map. cbn [ren_sig ren_signal with_name_attrs with_receivers s_is_mux].
  assert (NE : ids <> []) by (destruct ids; discriminate). destruct (C46_same_ids ids NE) as (rs & R1 & _ & R2). unfold ranges_of. rewrite R1. cbn [val].
  assert (SUB : forall y, In y (firstn 1 ids) -> In y ids). { destruct ids as [|i r]; intros y []; [left; assumption|contradiction]. }
  destruct (extended_mux (db_messages (R db))) eqn:X.
  - rewrite (R2 x). destruct (filter s_is_mux (m_signals m)) as [|v [|v' r]]; cbn [map]; split; try tauto; try (intros [[]|K]; exact K). intros [K|K]; [apply SUB, K|exact K].
  - assert (L : existsb (fun m => Nat.ltb 1 (List.length (filter s_is_mux (m_signals m))) ||
                    existsb (fun s => match s_mux_ids s with Some l => Nat.ltb 1 (List.length l) | None => false end) (m_signals m)) (db_messages (R db)) = false) by exact X.
    assert (L2 : Nat.ltb 1 (List.length (filter s_is_mux (m_signals m))) = false /\ Nat.ltb 1 (List.length ids) = false).
    { assert (Z : forall y, In y (db_messages (R db)) -> Nat.ltb 1 (List.length (filter s_is_mux (m_signals y))) ||
                    existsb (fun s => match s_mux_ids s with Some l => Nat.ltb 1 (List.length l) | None => false end) (m_signals y) = false).
      { intros y Y. match goal with |- ?b = false => destruct b eqn:B end; [|reflexivity]. exfalso. assert (T : extended_mux (db_messages (R db)) = true) by (apply existsb_exists; exists y; auto). congruence. }
      specialize (Z _ (ren_msg_in _ _ I)). apply orb_false_iff in Z. destruct Z as [Z1 Z2]. rewrite ren_message_signals, filter_map, map_length in Z1. split; [exact Z1|].
      destruct (Nat.ltb 1 (List.length ids)) eqn:B; [|reflexivity]. exfalso. assert (T : existsb (fun s => match s_mux_ids s with Some l => Nat.ltb 1 (List.length l) | None => false end) (m_signals (ren_message shorten db m)) = true); [|congruence].
      apply existsb_exists. exists (ren_sig shorten db m s). split; [apply ren_sig_in, J|]. change (s_mux_ids (ren_sig shorten db m s)) with (s_mux_ids s). rewrite E. exact B. }
    destruct L2 as [L2 L3]. destruct (filter s_is_mux (m_signals m)) as [|v [|v' r]]; [discriminate| |discriminate L2]. cbn [map].
    destruct ids as [|i [|i' r]]; [contradiction| |discriminate L3]. cbn [firstn In]. tauto.
Qed.
Theorem signal_back db m s : goods db -> In m (db_messages db) -> In s (m_signals m) ->
  same_signal (vdefs (D2 db)) s (vsignal set_list (R db) (ren_message shorten db m) (ren_sig shorten db m s)).
Proof.
  intros H I J. pose proof (initial_back _ _ _ H I J) as IB. pose proof (spn_back _ _ _ H I J) as SB. pose proof (sig_long _ _ _ H I J) as LB.
  pose proof (bound_back _ _ _ (s_min s) H I J) as B1. pose proof (bound_back _ _ _ (s_max s) H I J) as B2. pose proof (signal_attrs_ok shorten _ _ _ H I J) as AO.
  pose proof (good_signal_in _ _ _ H I J) as GS. unfold good_signal in GS. splitb.
  match goal with H : forallb (known db) _ = true |- _ => rename H into KN end.
  pose proof (receivers_back _ _ H KN) as RB.
  unfold same_signal, vsignal. fold (D2 db). cbn [s_name s_start s_length s_big s_signed s_initial s_scale s_offset s_float s_choices s_min s_max s_unit s_comment s_receivers s_is_mux s_mux_ids s_mux_signal s_spn s_attrs].
  change (s_name (ren_sig shorten db m s)) with (sh shorten (names_of m) (s_name s)). rewrite LB, IB, SB. cbn [val].
  change (s_receivers (ren_sig shorten db m s)) with (map (node_short shorten db) (s_receivers s)). rewrite RB.
  change (s_min (ren_sig shorten db m s)) with (s_min s). change (s_max (ren_sig shorten db m s)) with (s_max s). rewrite B1, B2.
  change (s_mux_ids (ren_sig shorten db m s)) with (s_mux_ids s).
  do 16 (split; [reflexivity|]). split; [|do 2 (split; [reflexivity|])].
  - destruct (s_mux_ids s) as [ids|] eqn:E; [|exact Logic.I]. cbn [option_map]. exact (ids_back _ _ _ _ H I J E).
  - unfold sig_view_attrs. apply (same_attrs_view _ _ (Some "SG_")); [exact AO| |].
    + intros n y _ C. exists (Some "SG_"). match goal with H : good_attrs _ _ (s_attrs s) = true |- _ => rename H into GA end. exact (good_attrs_get _ _ _ _ _ (grow_attrs shorten _ _ _ H GA) C).
    + intros n NI. apply ren_sig_attrs_get; try assumption; intros ->; apply NI; cbn [map In]; auto.
Qed.

(** ** Messages *)
Lemma opt_chars_eq x y : opt_chars_eqb x y = true -> x = y.
Proof. destruct x, y; cbn [opt_chars_eqb]; try discriminate; [|reflexivity]. intros E. apply chars_eqb_eq in E. subst. reflexivity. Qed.
Lemma send_type_back db m a : goods db -> In m (db_messages db) -> cget a (txt "GenMsgSendType") = cget (m_attrs m) (txt "GenMsgSendType") ->
  send_type_of (vdefs (D2 db)) (vattrs (D2 db) a) = Ok (m_send_type m).
Proof.
  intros H I A. pose proof (good_message_in _ _ H I) as GM. unfold good_message in GM. splitb. match goal with H : good_send_type _ _ = true |- _ => unfold good_send_type in H end. splitb.
  match goal with H : opt_chars_eqb _ _ = true |- _ => apply opt_chars_eq in H; rename H into ES end.
  match goal with H : negb _ || some _ = true |- _ => rename H into SM end. match goal with H : good_attrs _ _ (m_attrs m) = true |- _ => rename H into GA end.
  rewrite ES in SM |- *. unfold send_type_of, send_type_said in *. rewrite vdefs_get, vattrs_get, A. rewrite D2_plain; [|exact H|apply not_added; reflexivity].
  destruct (cget (db_definitions db) (txt "GenMsgSendType")) as [d|] eqn:G; [|reflexivity]. cbn [option_map].
  assert (T : (type_is d "STRING" || type_is d "ENUM") = true).
  { apply (good_standard (db_definitions db) "GenMsgSendType" (fun d => type_is d "STRING" || type_is d "ENUM")); [exact (gd_defs _ H)| |exact G]. cbn [standard In]. do 8 right. left. reflexivity. }
  destruct (good_defs_in _ _ _ (gd_defs _ H) G) as (_ & O & _). unfold def_ok in O. splitb.
  match goal with H : choices_ok _ = true |- _ => unfold choices_ok in H; rename H into CO end.
  match goal with H : opt_ok (default_ok _) _ = true |- _ => unfold default_ok in H; rename H into DO end.
  assert (TY : is_int_type (d_type d) = false /\ is_float_type (d_type d) = false).
  { unfold type_is in T. apply orb_true_iff in T. destruct T as [T|T]; apply chars_eqb_eq in T; rewrite T; split; reflexivity. }
  destruct TY as [T1 T2]. rewrite T1, T2 in DO. unfold view_def. rewrite T2.
  destruct (cget (m_attrs m) (txt "GenMsgSendType")) as [x|] eqn:GX; cbn [option_map].
  - pose proof (good_attrs_get _ _ _ _ _ (grow_attrs shorten _ _ _ H GA) GX) as GO. destruct (view_good _ _ _ _ GO) as (d' & _ & ->). cbn [a_value].
    pose proof (good_attrs_get _ _ _ _ _ GA GX) as GO'. unfold good_attr in GO'. cbn [fst snd] in GO'. rewrite G in GO'. splitb.
    match goal with H : typed _ _ = true |- _ => unfold typed in H; rewrite T1, T2 in H; cbn [orb] in H; rename H into TP end. unfold cmem, dmem in SM.
    assert (SM2 : some (match a_value x with AStr t => Some t | AInt i => if 0 <=? i then nth_error (d_choices d) (Z.to_nat i) else None | AFloat _ => None end) = true).
    { match goal with |- ?s = true => destruct s eqn:Es; [reflexivity|] end. rewrite orb_false_r in SM. unfold cget in GX. rewrite GX in SM. discriminate. }
    clear SM. unfold type_is in T. destruct (cspec (d_type d) (txt "ENUM")) as [TE|TE].
    + destruct (a_value x) as [i| |]; try discriminate. destruct (Z.leb_spec 0 i) as [P|]; [|discriminate]. destruct (nth_error (d_choices d) (Z.to_nat i)) as [c|] eqn:NC; [|discriminate].
      assert (PI : py_index (d_choices d) i = Ok c). { rewrite <- (Z2Nat.id i P). apply py_index_nat, NC. }
      destruct (d_choices d) as [|c0 r]; [destruct (Z.to_nat i); discriminate|]. cbn [aval_int bind]. rewrite PI. reflexivity.
    + destruct (d_choices d); [|discriminate]. destruct (a_value x); try discriminate. reflexivity.
  - destruct (d_default d) as [[]|]; try discriminate; reflexivity.
Qed.
Lemma add_new_all l : forall acc, NoDup (acc ++ l) -> fold_left add_new l acc = acc ++ l.
Proof.
  induction l as [|x l IH]; intros acc N; cbn [fold_left]; [rewrite app_nil_r; reflexivity|]. unfold add_new at 2.
  destruct (chars_in_spec x acc) as [I|NI].
  - exfalso. apply NoDup_remove_2 in N. apply N, in_app_iff. left. exact I.
  - rewrite IH; rewrite <- app_assoc; [reflexivity|exact N].
Qed.
Lemma senders_back db m : goods db -> In m (db_messages db) -> vsenders (R db) (ren_message shorten db m) = m_senders m.
Proof.
  intros H I. pose proof (good_message_in _ _ H I) as GM. unfold good_message in GM. splitb. match goal with H : forallb (known db) (m_senders m) = true |- _ => rewrite forallb_forall in H; rename H into KN end.
  match goal with H : nodup_by chars_eqb (m_senders m) = true |- _ => apply (nodup_by_spec _ cspec) in H; rename H into ND end.
  unfold vsenders. change (m_senders (ren_message shorten db m)) with (map (node_short shorten db) (m_senders m)).
  assert (V : map (vname (R db)) (map (node_short shorten db) (m_senders m)) = m_senders m).
  { rewrite map_map. rewrite <- (map_id (m_senders m)) at 2. apply map_ext_in. intros n J. apply vname_known; [exact H|apply KN, J]. }
  destruct (m_senders m) as [|x [|y l]] eqn:E.
  - cbn [map hd fold_left]. rewrite vname_xxx by exact H. reflexivity.
  - cbn [map hd fold_left]. rewrite (vname_known _ _ H (KN x (or_introl eq_refl))). cbn [only_xxx].
    destruct (known_ok _ _ (KN x (or_introl eq_refl))) as (_ & N & _). rewrite (chars_ne _ _ N). reflexivity.
  - cbn [map hd] in *. rewrite V. rewrite (vname_known _ _ H (KN x (or_introl eq_refl))).
    assert (X : add_new [x] x = [x]) by (unfold add_new, chars_in; cbn [existsb]; rewrite chars_eqb_refl; reflexivity).
    assert (Y : fold_left add_new (x :: y :: l) [x] = x :: y :: l). { change (fold_left add_new (y :: l) (add_new [x] x) = x :: y :: l). rewrite X. exact (add_new_all (y :: l) [x] ND). }
    rewrite Y. reflexivity.
Qed.
Lemma groups_back db m : goods db -> In m (db_messages db) -> vgroups (R db) (ren_message shorten db m) = match m_groups m with Some [] => None | g => g end.
Proof.
  intros H I. pose proof (goods_named shorten _ H) as NW. pose proof (nw_groups _ _ NW m) as G. unfold vgroups. rewrite ren_message_signals.
  assert (E : m_groups (ren_message shorten db m) = option_map (map (ren_group (sh shorten (names_of m)))) (m_groups m)). { unfold ren_message, ren_signals. rewrite names_of_name, names_of_ren. reflexivity. }
  rewrite E. destruct (m_groups m) as [gs|]; [|reflexivity]. cbn [option_map]. destruct gs as [|g0 gs]; [reflexivity|]. cbn [or_empty] in G. set (l := g0 :: gs) in *.
  assert (K : map (fun g => Group (g_name g) (g_repetitions g) (map (sname (R db) (frame (ren_message shorten db m)))
                (filter (fun n => chars_in n (map s_name (map (ren_sig shorten db m) (m_signals m)))) (g_signals g)))) (map (ren_group (sh shorten (names_of m))) l) = l).
  { rewrite map_map. rewrite <- (map_id l) at 2. apply map_ext_in. intros g J. unfold ren_group. cbn [g_name g_repetitions g_signals].
    assert (F : filter (fun n => chars_in n (map s_name (map (ren_sig shorten db m) (m_signals m)))) (map (sh shorten (names_of m)) (g_signals g)) = map (sh shorten (names_of m)) (g_signals g)).
    { rewrite filter_map. f_equal. rewrite (filter_ext_in _ (fun _ => true)); [clear; induction (g_signals g) as [|x r IH]; [reflexivity|cbn [filter]; rewrite IH; reflexivity]|].
      intros n Kn. apply chars_in_iff. rewrite map_map. change (fun x => s_name (ren_sig shorten db m x)) with (fun x => sh shorten (names_of m) (s_name x)).
      rewrite <- (map_map s_name (sh shorten (names_of m))). apply in_map. exact (G g n I J Kn). }
    rewrite F, map_map. destruct g as [gn gr gl]. cbn [g_name g_repetitions g_signals] in *. f_equal. rewrite <- (map_id gl) at 2. apply map_ext_in. intros n Kn.
    change (frame (ren_message shorten db m)) with (frame m). apply sname_in; [exact H|exact I|]. exact (G _ n I J Kn). }
  unfold l in K at 1. cbn [map] in K. subst l. cbn [map]. rewrite K. reflexivity.
Qed.
Lemma msg_attrs_is db m a : message_attrs (D2 db) (ren_message shorten db m) = Ok a -> msg_view_attrs (D2 db) (ren_message shorten db m) = vattrs (D2 db) a.
Proof. intros E. unfold msg_view_attrs, msg_attrs. rewrite E. reflexivity. Qed.
Lemma forall2_map {A B} (P : A -> B -> Prop) (f : A -> B) l : (forall x, In x l -> P x (f x)) -> Forall2 P l (map f l).
Proof. induction l as [|x l IH]; intros H; constructor; [apply H; left; reflexivity|apply IH; intros y I; apply H; right; exact I]. Qed.
Lemma message_back db m : goods db -> In m (db_messages db) -> same_message (vdefs (D2 db)) m (vmessage set_list (R db) (ren_message shorten db m)).
Proof.
  intros H I. destruct (message_written shorten _ _ H I) as (a & EA & OA & KA & LN & CT & ff & FF & FJ & FD). pose proof (senders_back _ _ H I) as SB. pose proof (groups_back _ _ H I) as GB.
  assert (ST : send_type_of (vdefs (D2 db)) (vattrs (D2 db) a) = Ok (m_send_type m)).
  { apply send_type_back; [exact H|exact I|]. apply KA. intros J. cbn [map In] in J. repeat destruct J as [J|J]; try discriminate J. exact J. }
  unfold same_message, vmessage. fold (D2 db). rewrite (msg_attrs_is _ _ _ EA).
  cbn [m_id m_extended m_name m_length m_senders m_send_type m_cycle_time m_comment m_signals m_j1939 m_fd m_groups m_attrs]. rewrite LN, CT, ST, FF, SB, GB. cbn [val]. rewrite FJ, FD.
  do 8 (split; [reflexivity|]). split; [|do 3 (split; [reflexivity|])].
  - set (f := fun s => vsignal set_list (R db) (ren_message shorten db m) (ren_sig shorten db m s)).
    assert (P : Permutation (sort_signals (map (vsignal set_list (R db) (ren_message shorten db m)) (dump_order (m_signals (ren_message shorten db m))))) (map f (m_signals m))).
    { transitivity (map (vsignal set_list (R db) (ren_message shorten db m)) (dump_order (m_signals (ren_message shorten db m)))); [apply sorted_py_perm|].
      transitivity (map (vsignal set_list (R db) (ren_message shorten db m)) (m_signals (ren_message shorten db m))); [apply Permutation_map, dump_order_perm|].
      rewrite ren_message_signals, map_map. apply Permutation_refl. }
    apply Permutation_map_inv in P. destruct P as (l & E & P). exists l. split; [apply Permutation_sym, P|]. rewrite E. apply forall2_map. intros s J.
    apply signal_back; [exact H|exact I|]. eapply Permutation_in; [apply Permutation_sym, P|exact J].
  - apply (same_attrs_view _ _ (Some "BO_")); [exact OA| |exact KA]. intros n y _ C. exists (Some "BO_"). pose proof (good_message_in _ _ H I) as GM. unfold good_message in GM. splitb.
    match goal with H : good_attrs _ _ (m_attrs m) = true |- _ => rename H into GA end. exact (good_attrs_get _ _ _ _ _ (grow_attrs shorten _ _ _ H GA) C).
Qed.

(** ** The bus *)
Lemma db_attributes db a : goods db -> written_attrs db a -> attrs_of (vobjects (R db)) KDb = vattrs (D2 db) a.
Proof.
  intros H (E & _). apply attrs_object; [apply good_fits, H|]. unfold objects. fold (D2 db). rewrite E. left. reflexivity.
Qed.
Lemma bus_back db : goods db -> load_bus (vobjects (R db)) (vbus_comment (R db)) = Ok (db_buses db).
Proof.
  intros H. destruct (attributes_written _ H) as (a & W). pose proof (db_attributes _ _ H W) as DA. destruct W as (_ & AO & KA & BA). unfold load_bus. rewrite DA.
  assert (N1 : txt "DBName" <> txt "Baudrate") by discriminate.
  assert (NM : match cget (vattrs (D2 db) a) (txt "DBName") with Some x => match a_value x with AStr s => Ok s | _ => Err ParseError end | None => Ok [] end = Ok (name_said db)).
  { rewrite vattrs_get, (KA _ N1). unfold name_said. destruct (cget (db_attrs db) (txt "DBName")) as [x|] eqn:GX; [|reflexivity]. cbn [option_map].
    pose proof (good_attrs_get _ _ _ _ _ (gd_attrs _ H) GX) as GO. pose proof (grow_attr shorten _ _ _ _ H N1 GO) as GO2. destruct (view_good _ _ _ _ GO2) as (d & GD & ->). cbn [a_value].
    unfold good_attr in GO2. cbn [fst snd] in GO2. rewrite GD in GO2. splitb.
    destruct (string_def (D2 db) "DBName" None d (D2_good shorten _ H)) as (T & _); [cbn [standard In]; do 10 right; left; reflexivity|exact GD|].
    match goal with H : typed _ _ = true |- _ => unfold typed in H; rewrite T in H; change (is_int_type (txt "STRING") || chars_eqb (txt "STRING") (txt "ENUM")) with false in H; change (is_float_type (txt "STRING")) with false in H; cbn iota in H end.
    destruct (a_value x); try discriminate. reflexivity. }
  rewrite NM. cbn [bind].
  assert (BD : match cget (vattrs (D2 db) a) (txt "Baudrate") with Some x => match a_value x with AInt z => Ok (Some z) | _ => Err ParseError end | None => Ok None end = Ok (one_baudrate db)).
  { destruct (cget (vattrs (D2 db) a) (txt "Baudrate")) as [x|]; cbn [option_map] in BA; destruct (one_baudrate db) as [b|]; try discriminate; [|reflexivity]. injection BA as ->. reflexivity. }
  rewrite BD. cbn [bind]. pose proof (gd_bus _ H) as GB. unfold good_bus in GB. unfold one_baudrate.
  assert (C : vbus_comment (R db) = match db_buses db with [b] => b_comment b | _ => None end).
  { unfold vbus_comment. change (db_buses (R db)) with (db_buses db). destruct (db_buses db) as [|[bn bb [c|]] [|]]; try discriminate; try reflexivity. cbn [flat_map b_comment opt_list app List.concat]. rewrite app_nil_r. reflexivity. }
  rewrite C. clear C.
  destruct (db_buses db) as [|b [|]]; [| |discriminate].
  - destruct (name_said db); [reflexivity|discriminate].
  - splitb. match goal with H : chars_eqb (b_name b) _ = true |- _ => apply chars_eqb_eq in H; rewrite <- H end. destruct b as [bn bb bc]. cbn [b_name b_baudrate b_comment] in *.
    match goal with |- (if ?x then _ else _) = _ => assert (X : x = false) end; [|rewrite X; destruct bb; reflexivity].
    match goal with H : (nonempty bn || _ || _) = true |- _ => revert H end. destruct bn as [|c bn]; cbn [nonempty orb andb]; [|reflexivity].
    destruct bb as [z|]; cbn [opt_ok some andb orb]; [destruct (z =? 0); cbn [negb andb orb]; [|reflexivity]|]; destruct bc as [[|c bc]|]; cbn [opt_ok some nonempty andb orb]; intros; congruence || reflexivity.
Qed.
Lemma good_reads db : goods db -> reads (R db) = true.
Proof.
  intros H. unfold reads. rewrite bus_back by exact H. cbn [is_ok andb]. fold (D2 db). rewrite forallb_forall. intros x I. apply in_map_iff in I. destruct I as (m & <- & I). unfold reads_message.
  destruct (message_written shorten _ _ H I) as (a & EA & _ & KA & _ & _ & ff & FF & _). rewrite (msg_attrs_is _ _ _ EA), FF.
  rewrite (send_type_back db m); [|exact H|exact I|apply KA; cbn [map In]; intros J; repeat destruct J as [J|J]; try discriminate J; exact J]. cbn [is_ok andb].
  rewrite ren_message_signals, forallb_forall. intros y J. apply in_map_iff in J. destruct J as (s & <- & J). unfold reads_signal. rewrite initial_back, spn_back by assumption. reflexivity.
Qed.

(** ** Relations *)
Lemma frames_view db m : frame (vmessage set_list (R db) (ren_message shorten db m)) = frame m. Proof. reflexivity. Qed.
Lemma rels_back db : goods db -> rename_rels (vobjects (R db)) (map (vmessage set_list (R db)) (db_messages (R db))) (vsig_rels (db_rel_definitions db) (db_sig_rels (R db))) =
  vsig_rels (db_rel_definitions db) (db_sig_rels db).
Proof.
  intros H. change (rename_rels (vobjects (R db)) (map (vmessage set_list (R db)) (db_messages (R db))) (vsig_rels (db_rel_definitions db) (db_sig_rels (R db)))) with
    (fold_left (rename_frame frame (fun m => signal_long (vobjects (R db)) (frame m))) (map (vmessage set_list (R db)) (db_messages (R db))) (vsig_rels (db_rel_definitions db) (db_sig_rels (R db)))).
  change (db_messages (R db)) with (map (ren_message shorten db) (db_messages db)). rewrite map_map.
  change (db_sig_rels (R db)) with (ren_rels shorten (db_messages db) (db_sig_rels db)).
  assert (VR : vsig_rels (db_rel_definitions db) (ren_rels shorten (db_messages db) (db_sig_rels db)) =
               map (fun p => (fst p, map (fun q => (rn db (fst p) (fst q), vnode_rels (db_rel_definitions db) (snd q))) (snd p))) (db_sig_rels db)).
  { unfold vsig_rels, ren_rels, rename_frames. rewrite map_map. apply map_ext. intros p. cbn [fst snd]. rewrite map_map. reflexivity. }
  rewrite VR.
  assert (BK : forall p, In p (db_sig_rels db) -> map (fun q => sname (R db) (fst p) (rn db (fst p) (fst q))) (snd p) = map fst (snd p)).
  { intros p I. apply map_ext_in. intros q J. apply sname_rel; [exact H|exact I|]. apply in_map, J. }
  rewrite rename_frames_fold.
  - unfold rename_frames. rewrite map_map. unfold vsig_rels. apply map_ext_in. intros p I. cbn [fst snd]. f_equal. rewrite map_map. cbn [fst snd].
    apply map_ext_in. intros q J. f_equal. unfold name_in at 1.
    destruct (find (fun m => frame m =? fst p) (map (fun x => vmessage set_list (R db) (ren_message shorten db x)) (db_messages db))) as [m'|] eqn:F.
    + apply find_some in F. destruct F as [F1 F2]. apply Z.eqb_eq in F2. cbn beta. rewrite F2. apply sname_rel; [exact H|exact I|apply in_map, J].
    + destruct (rn_cases db (fst p)) as [(m & K & E & _)|[E _]]; [|apply E]. exfalso.
      assert (K' := find_none _ _ F (vmessage set_list (R db) (ren_message shorten db m)) (in_map (fun x => vmessage set_list (R db) (ren_message shorten db x)) _ _ K)).
      cbn beta in K'. rewrite frames_view, E, Z.eqb_refl in K'. discriminate.
  - rewrite map_map. exact (gd_frames _ H).
  - rewrite map_map. cbn [fst]. apply rels_nodup, H.
  - intros m' p' I J E. apply in_map_iff in J. destruct J as (p & <- & J). cbn [fst snd] in *. rewrite <- E. rewrite !map_map. cbn [fst].
    change (fun x : chars * list (chars * attrs) => signal_long (vobjects (R db)) (fst p) (rn db (fst p) (fst x))) with (fun q : chars * list (chars * attrs) => sname (R db) (fst p) (rn db (fst p) (fst q))).
    rewrite (BK p J). exact (proj1 (proj2 (rels_in _ _ H J))).
Qed.
Lemma node_rels_back defs k l : real_defs defs = true -> good_node_rels defs k l = true -> same_node_rels defs l (vnode_rels defs l).
Proof.
  intros RD G. unfold same_node_rels, vnode_rels. apply forall2_map. intros p I. unfold good_node_rels in G. splitb.
  match goal with H : forallb _ l = true |- _ => rewrite forallb_forall in H; specialize (H p I); rename H into GP end. splitb. split; [reflexivity|]. cbn [snd].
  match goal with H : good_attrs _ _ (snd p) = true |- _ => rename H into GA end.
  assert (S := same_attrs_view [] defs k (snd p) (snd p) (good_attrs_ok _ _ _ GA)). rewrite (real_vdefs _ RD) in S. apply S; [|reflexivity].
  intros n y _ C. exists k. exact (good_attrs_get _ _ _ _ _ GA C).
Qed.

(** ** The database *)
Theorem good_back db : goods db -> same_database db (view set_list (R db)).
Proof.
  intros H. unfold same_database, view. fold (D2 db).
  cbn [db_version db_nodes db_buses db_messages db_attrs db_definitions db_envvars db_tables db_sig_rels db_msg_rels db_rel_definitions].
  change (db_rel_definitions (R db)) with (db_rel_definitions db). rewrite (real_vdefs _ (gd_rreal _ H)). rewrite rels_back by exact H. rewrite bus_back by exact H. cbn [val].
  split; [reflexivity|]. split; [|split; [reflexivity|split; [|split; [|split; [|split; [|split; [|split; [|split; [|reflexivity]]]]]]]]].
  - change (db_nodes (R db)) with (map (ren_node (node_short shorten db) (ensured (db_definitions db) long_node)) (db_nodes db)). rewrite map_map. apply forall2_map. intros n I. apply node_back; assumption.
  - change (db_messages (R db)) with (map (ren_message shorten db) (db_messages db)). rewrite map_map. apply forall2_map. intros m I. apply message_back; assumption.
  - destruct (attributes_written _ H) as (a & W). rewrite (db_attributes _ _ H W). destruct W as (_ & AO & KA & _). apply (same_attrs_view _ _ None); [exact AO| |].
    + intros n y NI C. exists None. apply grow_attr; [exact H| |exact (good_attrs_get _ _ _ _ _ (gd_attrs _ H) C)]. intros ->. apply NI. left. reflexivity.
    + intros n NI. apply KA. intros ->. apply NI. left. reflexivity.
  - intros n d N G. rewrite vdefs_get, (D2_kept shorten _ _ _ H N G). cbn [option_map]. rewrite (real_defs_view _ _ _ (gd_real _ H) G). reflexivity.
  - change (db_envvars (R db)) with (map (ren_envvar (envvar_short shorten db) (ensured (db_definitions db) long_envvar)) (db_envvars db)). rewrite map_map.
    assert (E : map fst (map (fun p => venvvar (R db) (ren_envvar (envvar_short shorten db) (ensured (db_definitions db) long_envvar) p)) (db_envvars db)) = map fst (db_envvars db)).
    { rewrite map_map. apply map_ext_in. intros p I. exact (proj1 (envvar_back shorten _ _ H I)). }
    rewrite (upd_app _ cspec); [|cbn [app]; rewrite E; exact (gd_env_names _ H)]. cbn [app]. apply forall2_map. intros p I. apply envvar_back; assumption.
  - change (db_tables (R db)) with (db_tables db). apply forall2_map. intros t I. split; [reflexivity|]. cbn [snd]. unfold descending.
    transitivity (sorted_py (fun a b : Z * chars => fst a <=? fst b) (snd t)); [apply Permutation_sym, sorted_py_perm|apply Permutation_rev].
  - unfold vsig_rels. apply forall2_map. intros p I. split; [reflexivity|]. cbn [snd]. apply forall2_map. intros q J. split; [reflexivity|]. cbn [snd].
    destruct (rels_in _ _ H I) as (A & _). destruct (A q J) as (_ & G). exact (node_rels_back _ _ _ (gd_rreal _ H) G).
  - change (db_msg_rels (R db)) with (db_msg_rels db). unfold vmsg_rels. apply forall2_map. intros p I. split; [reflexivity|]. cbn [snd].
    pose proof (gd_msg_rels _ H) as G. unfold good_msg_rels in G. splitb. match goal with H : forallb _ (db_msg_rels db) = true |- _ => rewrite forallb_forall in H; specialize (H p I); rename H into GP end.
    exact (node_rels_back _ _ _ (gd_rreal _ H) GP).
Qed.
Theorem round_trip db : good db = true -> exists text db', dump_string shorten db = Ok text /\ load_string set_list text = Ok db' /\ same_database db db'.
Proof.
  intros G. pose proof (good_goods _ G) as H. destruct (file_read_back set_list (R db) (good_fit _ H) (good_reads _ H)) as (f & F & L).
  exists (file_text f), (view set_list (R db)). split; [|split; [exact L|apply good_back, H]].
  unfold dump_string. rewrite special_same by exact H. cbn [bind]. rewrite names_made_unique by (apply goods_named, H). cbn [bind]. rewrite F. reflexivity.
Qed.
End GoodRead.
