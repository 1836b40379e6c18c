(** DbcGoodFit: after its names are changed, a good database fits a DBC file, and what is read for its attributes. *)
From Coq Require Import Ascii Permutation.
From Verif Require Import Base CSource CNames DictLemmas Regex DecText DbcNames Prop_DbcNames DbcToken DbcLex DbcStmt DbcPieces DbcParse DbcGrammar DbcDump DbcLoad DbcTables DbcFit DbcWrite DbcRead DbcView DbcSame DbcShort DbcGood.
Local Open Scope string_scope.
Local Open Scope Z_scope.
Local Open Scope list_scope.

Section Attrs.
Context {FL : Floats} {LW : FloatLaws FL}.
Implicit Types (defs : definitions) (d : definition) (a : attrs) (x : chars * attribute).

(** ** Attributes *)
Lemma retype_typed t v : typed t v = true -> retype t v = Some v.
Proof.
  unfold typed, retype. destruct (is_int_type t || chars_eqb t (txt "ENUM")); [destruct v; try discriminate; reflexivity|].
  destruct (is_float_type t); destruct v; try discriminate; intros ->; reflexivity.
Qed.
Lemma good_attr_ok defs k x : good_attr defs k x = true -> attr_ok defs k x = true.
Proof.
  unfold good_attr, attr_ok. intros H. splitb. splitg; try assumption.
  - match goal with H : kind_eqb _ k = true |- _ => apply kind_eqb_eq in H end. unfold has_kind. destruct k; [|reflexivity].
    destruct (d_kind (a_def (snd x))) as [k'|]; [|discriminate]. match goal with H : Some _ = Some _ |- _ => injection H as -> end. apply String.eqb_refl.
  - destruct (cget defs (fst x)); [|discriminate]. splitb. splitg; [assumption|]. rewrite retype_typed by assumption. reflexivity.
Qed.
Lemma good_attrs_ok defs k a : good_attrs defs k a = true -> attrs_ok defs k a = true.
Proof.
  unfold good_attrs, attrs_ok. intros H. splitb. splitg; [|assumption]. rewrite forallb_forall in *. intros x I. apply good_attr_ok. auto.
Qed.
Lemma attrs_ok_nodup defs k a : attrs_ok defs k a = true -> NoDup (map fst a).
Proof. unfold attrs_ok. intros H. splitb. apply (nodup_by_spec _ cspec). assumption. Qed.
Lemma good_attrs_nodup defs k a : good_attrs defs k a = true -> NoDup (map fst a).
Proof. unfold good_attrs. intros H. splitb. apply (nodup_by_spec _ cspec). assumption. Qed.
Lemma attrs_ok_get defs k a n y : attrs_ok defs k a = true -> cget a n = Some y -> attr_ok defs k (n, y) = true.
Proof. unfold attrs_ok. intros H G. splitb. apply (get_in _ cspec) in G. match goal with H : forallb _ a = true |- _ => rewrite forallb_forall in H; apply H, G end. Qed.
Lemma good_attrs_get defs k a n y : good_attrs defs k a = true -> cget a n = Some y -> good_attr defs k (n, y) = true.
Proof. unfold good_attrs. intros H G. splitb. apply (get_in _ cspec) in G. match goal with H : forallb _ a = true |- _ => rewrite forallb_forall in H; apply H, G end. Qed.
Lemma attrs_ok_del defs k a n : attrs_ok defs k a = true -> attrs_ok defs k (cdel a n) = true.
Proof.
  intros H. pose proof (attrs_ok_nodup _ _ _ H) as ND. unfold attrs_ok in *. splitb. splitg.
  - rewrite forallb_forall in *. intros x I. apply del_in in I. auto.
  - apply (nodup_by_intro _ cspec), (del_nodup _), ND.
Qed.
Lemma set_in {K V} (eqb : K -> K -> bool) (spec : forall p q : K, reflect (p = q) (eqb p q)) (l : list (K * V)) k v p : In p (dset eqb l k v) -> In p l \/ p = (k, v).
Proof.
  induction l as [|[b w] l IH]; cbn [dset]; [intros [<-|[]]; auto|]. destruct (spec b k) as [->|].
  - intros [<-|I]; [auto|]. left. right. exact I.
  - intros [<-|I]; [left; left; reflexivity|]. destruct (IH I); [left; right; assumption|auto].
Qed.
Lemma attrs_ok_set defs k a n y : attrs_ok defs k a = true -> attr_ok defs k (n, y) = true -> attrs_ok defs k (cset a n y) = true.
Proof.
  intros H O. pose proof (attrs_ok_nodup _ _ _ H) as ND. unfold attrs_ok in *. splitb. splitg.
  - rewrite forallb_forall in *. intros x I. apply (set_in _ cspec) in I. destruct I as [I| ->]; auto.
  - apply (nodup_by_intro _ cspec), (set_nodup _ cspec), ND.
Qed.
Lemma vattrs_get defs a n : cget (vattrs defs a) n = option_map (fun y => snd (view_attr defs (n, y))) (cget a n).
Proof.
  unfold cget, vattrs. induction a as [|[k y] a IH]; [reflexivity|]. cbn [map dget view_attr fst snd]. destruct (cspec k n) as [->|]; [reflexivity|exact IH].
Qed.
Lemma get_cset {V} (l : list (chars * V)) k v n : cget (cset l k v) n = if chars_eqb k n then Some v else cget l n.
Proof. unfold cget, cset. rewrite (get_set _ cspec). reflexivity. Qed.
Lemma view_good defs k n y : good_attr defs k (n, y) = true -> exists d, cget defs n = Some d /\ snd (view_attr defs (n, y)) = Attr (a_value y) (view_def d).
Proof.
  unfold good_attr, view_attr. cbn [fst snd]. intros H. splitb. destruct (cget defs n) as [d|]; [|discriminate]. splitb. exists d. split; [reflexivity|].
  rewrite retype_typed by assumption. reflexivity.
Qed.
Lemma view_ok defs k n y : attr_ok defs k (n, y) = true -> exists d v, cget defs n = Some d /\ retype (d_type d) (a_value y) = Some v /\ snd (view_attr defs (n, y)) = Attr v (view_def d).
Proof.
  unfold attr_ok, view_attr. cbn [fst snd]. intros H. splitb. destruct (cget defs n) as [d|]; [|discriminate]. splitb.
  destruct (retype (d_type d) (a_value y)) as [v|] eqn:E; [|discriminate]. exists d, v. auto.
Qed.
(** What is read of attributes of which only some were changed *)
Lemma same_attrs_view managed defs k a a' : attrs_ok defs k a' = true ->
  (forall n y, ~ In n (map txt managed) -> cget a n = Some y -> exists k', good_attr defs k' (n, y) = true) ->
  (forall n, ~ In n (map txt managed) -> cget a' n = cget a n) -> same_attrs managed (vdefs defs) a (vattrs defs a').
Proof.
  intros O G E. split.
  - intros n NI. rewrite vattrs_get, (E n NI). destruct (cget a n) as [y|] eqn:C; [|reflexivity]. cbn [option_map]. destruct (G n y NI C) as (k' & O').
    destruct (view_good _ _ _ _ O') as (d & _ & ->). reflexivity.
  - intros n x. rewrite vattrs_get, vdefs_get. destruct (cget a' n) as [y|] eqn:C; [|discriminate]. cbn [option_map].
    destruct (view_ok _ _ _ _ (attrs_ok_get _ _ _ _ _ O C)) as (d & v & Ed & _ & Ev). rewrite Ev, Ed. intros V. injection V as <-. reflexivity.
Qed.
Lemma get_long_attr d a n n' k : NoDup (map fst a) -> cget (long_attr d a n n') k =
  if chars_eqb (d_name d) k then (if chars_eqb n n' then None else Some (Attr (AStr n) d)) else cget a k.
Proof.
  intros ND. unfold long_attr. destruct (chars_eqb n n').
  - apply get_cdel, ND.
  - rewrite get_cset, get_cdel by exact ND. destruct (chars_eqb (d_name d) k); reflexivity.
Qed.
Lemma long_attr_ok defs k d a n n' : attrs_ok defs k a = true -> plain_text n = true ->
  (n <> n' -> cget defs (d_name d) = Some d /\ d_type d = txt "STRING" /\ has_kind k (Attr (AStr n) d) = true) -> attrs_ok defs k (long_attr d a n n') = true.
Proof.
  intros O P H. unfold long_attr. destruct (cspec n n') as [|NE]; [apply attrs_ok_del, O|]. apply attrs_ok_set; [apply attrs_ok_del, O|]. destruct (H NE) as (G & T & K).
  unfold attr_ok. cbn [fst snd a_def a_value]. rewrite chars_eqb_refl, K, G. unfold type_is. rewrite T. cbn [andb].
  unfold retype. change (is_int_type (txt "STRING") || chars_eqb (txt "STRING") (txt "ENUM")) with false. change (is_float_type (txt "STRING")) with false. cbn iota. rewrite P. reflexivity.
Qed.
Lemma view_long defs d n : cget defs (d_name d) = Some d -> d_type d = txt "STRING" -> plain_text n = true -> a_value (snd (view_attr defs (d_name d, Attr (AStr n) d))) = AStr n.
Proof.
  intros G T P. unfold view_attr. cbn [fst snd a_value]. rewrite G, T. unfold retype.
  change (is_int_type (txt "STRING") || chars_eqb (txt "STRING") (txt "ENUM")) with false. change (is_float_type (txt "STRING")) with false. cbn iota. rewrite P. reflexivity.
Qed.
(** The long name is read back. *)
Lemma long_name_back defs d symbol a n n' : NoDup (map fst a) -> d_name d = txt symbol -> plain_text n = true -> (n <> n' -> cget defs (d_name d) = Some d /\ d_type d = txt "STRING") ->
  long_name symbol (vattrs defs (long_attr d a n n')) n' = n.
Proof.
  intros ND S P H. unfold long_name. rewrite vattrs_get, get_long_attr by exact ND. rewrite S, chars_eqb_refl. destruct (cspec n n') as [->|NE]; [reflexivity|]. cbn [option_map].
  destruct (H NE) as (G & T). rewrite <- S. rewrite view_long; [reflexivity|assumption..].
Qed.
End Attrs.

Section GoodFit.
Context {FL : Floats} {LW : FloatLaws FL} (shorten : bool).
Implicit Types (db : database) (m : dmessage) (s : dsignal) (defs : definitions) (d : definition) (a : attrs).
Notation D2 := (D2 shorten).

(** ** Attributes under the definitions that are written *)
Lemma attr_kind defs k n y d : good_attr defs k (n, y) = true -> cget defs n = Some d -> d_kind d = k.
Proof. unfold good_attr. cbn [fst]. intros H G. rewrite G in H. splitb. apply kind_eqb_eq. assumption. Qed.
Lemma grow_attr db k n y : goods db -> n <> txt "Baudrate" -> good_attr (db_definitions db) k (n, y) = true -> good_attr (D2 db) k (n, y) = true.
Proof.
  intros H N G. unfold good_attr in *. cbn [fst snd] in *. destruct (cget (db_definitions db) n) as [d|] eqn:E; [|rewrite andb_false_r in G; discriminate].
  rewrite (D2_kept _ _ _ _ H N E). exact G.
Qed.
Lemma not_baudrate db k n y : goods db -> good_attr (db_definitions db) (Some k) (n, y) = true -> n <> txt "Baudrate".
Proof.
  intros H G ->. destruct (cget (db_definitions db) (txt "Baudrate")) as [d|] eqn:E.
  - pose proof (attr_kind _ _ _ _ _ G E) as K.
    assert (S : (is_int_type (d_type d) && kind_eqb (d_kind d) None) = true).
    { apply (good_standard (db_definitions db) "Baudrate" (fun d => is_int_type (d_type d) && kind_eqb (d_kind d) None)); [apply H| |exact E]. cbn [standard In]. do 7 right. left. reflexivity. }
    rewrite K in S. cbn in S. rewrite andb_false_r in S. discriminate.
  - unfold good_attr in G. cbn [fst] in G. rewrite E, andb_false_r in G. discriminate.
Qed.
Lemma grow_attrs db k a : goods db -> good_attrs (db_definitions db) (Some k) a = true -> good_attrs (D2 db) (Some k) a = true.
Proof.
  intros H G. unfold good_attrs in *. splitb. splitg; [|assumption]. rewrite forallb_forall in *. intros [n y] I.
  match goal with H : forall x, In x a -> _ |- _ => specialize (H _ I) end. apply grow_attr; [exact H|eapply not_baudrate; eassumption|assumption].
Qed.
Lemma string_def defs n k d : good_defs defs = true -> In (n, fun d => type_is d "STRING" && kind_eqb (d_kind d) k) standard -> cget defs (txt n) = Some d -> d_type d = txt "STRING" /\ d_kind d = k.
Proof.
  intros G I E. pose proof (good_standard _ _ _ _ G I E) as P. cbn beta in P. apply andb_true_iff in P. destruct P as [P1 P2]. apply chars_eqb_eq in P1. apply kind_eqb_eq in P2. auto.
Qed.

(** ** Long names *)
Lemma changes_in {A} (f : chars -> chars) (name : A -> chars) l x : In x l -> name x <> f (name x) -> changes f name l = true.
Proof. intros I N. unfold changes. apply existsb_exists. exists x. split; [exact I|]. rewrite (chars_ne _ _ N). reflexivity. Qed.
Lemma ensured_kept db d : named (db_definitions db) -> d_name (ensured (db_definitions db) d) = d_name d.
Proof. apply ensured_name. Qed.
Definition long_ok db k d (n n' : chars) : Prop := n <> n' -> cget (D2 db) (d_name d) = Some d /\ d_type d = txt "STRING" /\ d_kind d = Some k.
Lemma long_def_ok db k symbol d0 : goods db -> In (symbol, fun d => type_is d "STRING" && kind_eqb (d_kind d) (Some k)) standard -> d_name d0 = txt symbol ->
  cget (D2 db) (txt symbol) = Some (ensured (db_definitions db) d0) ->
  cget (D2 db) (d_name (ensured (db_definitions db) d0)) = Some (ensured (db_definitions db) d0) /\ d_type (ensured (db_definitions db) d0) = txt "STRING" /\
  d_kind (ensured (db_definitions db) d0) = Some k.
Proof.
  intros H I N G. rewrite ensured_kept by (apply good_named, H). rewrite N. split; [exact G|]. exact (string_def _ _ _ _ (D2_good _ _ H) I G).
Qed.
Notation LN db := (ensured (db_definitions db) long_node).
Notation LM db := (ensured (db_definitions db) long_message).
Notation LS db := (ensured (db_definitions db) long_signal).
Notation LE db := (ensured (db_definitions db) long_envvar).
Lemma node_long_ok db n : goods db -> In n (db_nodes db) -> long_ok db "BU_" (LN db) (n_name n) (node_short shorten db (n_name n)).
Proof.
  intros H I NE. apply (long_def_ok db "BU_" "SystemNodeLongSymbol"); [exact H|left; reflexivity|reflexivity|]. apply D2_long_node; [exact H|]. exact (changes_in _ _ _ _ I NE).
Qed.
Lemma message_long_ok db m : goods db -> In m (db_messages db) -> long_ok db "BO_" (LM db) (m_name m) (message_short shorten db (m_name m)).
Proof.
  intros H I NE. apply (long_def_ok db "BO_" "SystemMessageLongSymbol"); [exact H|right; left; reflexivity|reflexivity|]. apply D2_long_message; [exact H|]. exact (changes_in _ _ _ _ I NE).
Qed.
Lemma signal_long_ok db m s : goods db -> In m (db_messages db) -> In s (m_signals m) -> long_ok db "SG_" (LS db) (s_name s) (sh shorten (names_of m) (s_name s)).
Proof.
  intros H I J NE. apply (long_def_ok db "SG_" "SystemSignalLongSymbol"); [exact H|do 2 right; left; reflexivity|reflexivity|]. apply D2_long_signal; [exact H|].
  apply existsb_exists. exists m. split; [exact I|]. exact (changes_in _ _ _ _ J NE).
Qed.
Lemma envvar_long_ok db p : goods db -> In p (db_envvars db) -> long_ok db "EV_" (LE db) (e_name (snd p)) (envvar_short shorten db (e_name (snd p))).
Proof.
  intros H I NE. apply (long_def_ok db "EV_" "SystemEnvVarLongSymbol"); [exact H|do 3 right; left; reflexivity|reflexivity|]. apply D2_long_envvar; [exact H|].
  exact (changes_in _ (fun p : chars * envvar => e_name (snd p)) _ _ I NE).
Qed.
Lemma long_fits db k d a n n' : goods db -> good_attrs (db_definitions db) (Some k) a = true -> name_ok n = true -> long_ok db k d n n' -> attrs_ok (D2 db) (Some k) (long_attr d a n n') = true.
Proof.
  intros H G N L. apply long_attr_ok.
  - apply good_attrs_ok, grow_attrs; assumption.
  - apply name_plain, N.
  - intros NE. destruct (L NE) as (A & B & C). split; [exact A|]. split; [exact B|]. unfold has_kind. cbn [a_def]. rewrite C. apply String.eqb_refl.
Qed.
Lemma long_back db k d symbol a n n' : d_name d = txt symbol -> good_attrs (db_definitions db) (Some k) a = true -> name_ok n = true -> long_ok db k d n n' ->
  long_name symbol (vattrs (D2 db) (long_attr d a n n')) n' = n.
Proof.
  intros S G N L. apply long_name_back; [exact (good_attrs_nodup _ _ _ G)|exact S|apply name_plain, N|]. intros NE. destruct (L NE) as (A & B & _). auto.
Qed.
Lemma same_long db k d symbol a n n' : goods db -> d_name d = txt symbol -> good_attrs (db_definitions db) (Some k) a = true -> name_ok n = true -> long_ok db k d n n' ->
  same_attrs [symbol] (vdefs (D2 db)) a (vattrs (D2 db) (long_attr d a n n')).
Proof.
  intros H S G N L. apply (same_attrs_view _ _ (Some k)); [apply long_fits; assumption| |].
  - intros x y _ C. exists (Some k). exact (good_attrs_get _ _ _ _ _ (grow_attrs _ _ _ H G) C).
  - intros x NI. rewrite get_long_attr by exact (good_attrs_nodup _ _ _ G). rewrite S. rewrite chars_ne; [reflexivity|]. intros E. apply NI. left. exact E.
Qed.

(** ** Nodes *)
Lemma good_node_in db n : goods db -> In n (db_nodes db) -> name_ok (n_name n) = true /\ comment_fits (n_comment n) = true /\ good_attrs (db_definitions db) (Some "BU_") (n_attrs n) = true.
Proof. intros H I. apply (gd_nodes _ H) in I. unfold good_node in I. splitb. auto. Qed.
Lemma node_fits db n : goods db -> In n (db_nodes db) -> fit_node (D2 db) (ren_node (node_short shorten db) (LN db) n) = true.
Proof.
  intros H I. destruct (good_node_in _ _ H I) as (A & B & C). unfold fit_node, ren_node. cbn [n_name n_comment n_attrs]. splitg; [|exact B|].
  - apply sh_name_ok; [apply H|exact A].
  - apply long_fits; [exact H|exact C|exact A|apply node_long_ok; assumption].
Qed.
Lemma node_back db n : goods db -> In n (db_nodes db) -> same_node (vdefs (D2 db)) n (vnode (renamed shorten db) (ren_node (node_short shorten db) (LN db) n)).
Proof.
  intros H I. destruct (good_node_in _ _ H I) as (A & B & C). unfold same_node, vnode, ren_node. cbn [n_name n_comment n_attrs]. split; [|split; [reflexivity|]].
  - apply (long_back db "BU_"); [apply ensured_kept, good_named, H|exact C|exact A|apply node_long_ok; assumption].
  - apply (same_long db "BU_"); [exact H|apply ensured_kept, good_named, H|exact C|exact A|apply node_long_ok; assumption].
Qed.

(** ** Environment variables *)
Lemma envvar_fits db p : goods db -> In p (db_envvars db) -> fit_envvar (D2 db) (snd (ren_envvar (envvar_short shorten db) (LE db) p)) = true.
Proof.
  intros H I. pose proof (gd_envvars _ H p I) as G. unfold good_envvar in G. splitb. unfold fit_envvar, ren_envvar, with_envvar_name.
  cbn [snd e_name e_type e_min e_max e_unit e_initial e_id e_access e_node e_comment e_attrs]. splitg; try assumption.
  - apply sh_name_ok; [rewrite (env_names _ H); apply H|assumption].
  - apply long_fits; [exact H|assumption|assumption|apply envvar_long_ok; assumption].
Qed.
Lemma envvar_back db p : goods db -> In p (db_envvars db) -> same_envvar (vdefs (D2 db)) p (venvvar (renamed shorten db) (ren_envvar (envvar_short shorten db) (LE db) p)).
Proof.
  intros H I. pose proof (gd_envvars _ H p I) as G. unfold good_envvar in G. splitb. unfold same_envvar, venvvar, ren_envvar, with_envvar_name.
  cbn [fst snd e_name e_type e_min e_max e_unit e_initial e_id e_access e_node e_comment e_attrs].
  assert (L : long_name "SystemEnvVarLongSymbol" (vattrs (D2 db) (long_attr (LE db) (e_attrs (snd p)) (e_name (snd p)) (envvar_short shorten db (e_name (snd p))))) (envvar_short shorten db (e_name (snd p))) = e_name (snd p)).
  { apply (long_back db "EV_"); [apply ensured_kept, good_named, H|assumption|assumption|apply envvar_long_ok; assumption]. }
  fold (D2 db). rewrite !L. split; [symmetry; apply chars_eqb_eq; assumption|]. do 10 (split; [reflexivity|]).
  apply (same_long db "EV_"); [exact H|apply ensured_kept, good_named, H|assumption|assumption|apply envvar_long_ok; assumption].
Qed.

(** ** Signals *)
Definition ren_sig db m s : dsignal := ren_signal (sh shorten (names_of m)) (LS db) (with_receivers s (map (node_short shorten db) (s_receivers s))).
Lemma ren_message_signals db m : m_signals (ren_message shorten db m) = map (ren_sig db m) (m_signals m).
Proof.
  unfold ren_message, ren_signals. rewrite names_of_name, names_of_ren. unfold ren_name, ren_nodes_in, with_signals, with_message_name. cbn [m_signals]. rewrite map_map. reflexivity.
Qed.
Lemma good_signal_in db m s : goods db -> In m (db_messages db) -> In s (m_signals m) -> good_signal db s = true.
Proof. intros H I J. apply (gd_messages _ H) in I. unfold good_message in I. splitb. match goal with H : forallb (good_signal _) _ = true |- _ => rewrite forallb_forall in H; apply H, J end. Qed.
Lemma has_initial_in db m s v : In m (db_messages db) -> In s (m_signals m) -> s_initial s = Some v -> has_initial db = true.
Proof. intros I J E. unfold has_initial. apply existsb_exists. exists m. split; [exact I|]. apply existsb_exists. exists s. split; [exact J|]. rewrite E. reflexivity. Qed.
Lemma start_def db d : goods db -> cget (D2 db) (txt "GenSigStartValue") = Some d -> is_float_type (d_type d) || is_int_type (d_type d) = true.
Proof.
  intros H G. apply (good_standard (D2 db) "GenSigStartValue" (fun d => is_float_type (d_type d) || is_int_type (d_type d))); [apply D2_good, H| |exact G].
  cbn [standard In]. do 5 right. left. reflexivity.
Qed.
Lemma float_not_int t : is_float_type t = true -> is_int_type t = false /\ chars_eqb t (txt "ENUM") = false /\ chars_eqb t (txt "STRING") = false.
Proof. intros H. apply chars_eqb_eq in H. subst t. repeat split; reflexivity. Qed.
Lemma int_not_string t : is_int_type t = true -> chars_eqb t (txt "STRING") = false /\ is_float_type t = false.
Proof. intros H. unfold is_int_type in H. apply orb_true_iff in H. destruct H as [H|H]; apply chars_eqb_eq in H; subst t; split; reflexivity. Qed.
Lemma start_retype db m s v : goods db -> In m (db_messages db) -> In s (m_signals m) -> s_initial s = Some v ->
  exists d, cget (D2 db) (txt "GenSigStartValue") = Some d /\ type_is d "STRING" = false /\
            retype (d_type d) (AFloat (to_float v)) = Some (match read_initial (D2 db) v with DInt z => AInt z | DFloat f => AFloat f end).
Proof.
  intros H I J E. pose proof (has_initial_in _ _ _ _ I J E) as HI. destruct (D2_start shorten _ H HI) as (d & G). exists d. split; [exact G|].
  pose proof (good_signal_in _ _ _ H I J) as GS. unfold good_signal in GS. splitb. rewrite E in *. cbn [opt_ok] in *.
  match goal with H : good_initial _ _ = true |- _ => unfold good_initial in H end. splitb.
  pose proof (int_start_D2 shorten _ H HI) as IS. unfold read_initial. rewrite IS. unfold int_start in IS at 1. rewrite G in IS.
  pose proof (start_def _ _ H G) as T. unfold type_is, retype. destruct (is_int_type (d_type d)) eqn:TI.
  - destruct (int_not_string _ TI) as (T1 & T2). split; [exact T1|]. rewrite <- IS in *. cbn [orb andb] in *. destruct v as [z|f]; [|discriminate]. cbn [to_float real_ok] in *.
    match goal with H : small z = true |- _ => apply Z.leb_le in H; destruct (int_finite z H) as (F1 & _ & F3) end. rewrite F1, F3. reflexivity.
  - rewrite orb_false_r in T. destruct (float_not_int _ T) as (_ & T1 & T2). split; [exact T2|]. rewrite <- IS in *. rewrite T1, T. cbn [orb].
    assert (F : f_finite (to_float v) = true). { destruct v as [z|f]; cbn [to_float real_ok] in *; [apply small_ok, Z.leb_le|]; assumption. } rewrite F. reflexivity.
Qed.
Lemma signal_attrs_get s n : NoDup (map fst (s_attrs s)) -> cget (signal_attrs s) n =
  if chars_eqb (txt "GenSigStartValue") n then option_map (fun v => Attr (AFloat (to_float v)) def_start_value) (s_initial s) else cget (s_attrs s) n.
Proof.
  intros ND. unfold signal_attrs. destruct (s_initial s) as [v|].
  - rewrite get_cset. destruct (chars_eqb _ n); reflexivity.
  - rewrite get_cdel by exact ND. destruct (chars_eqb _ n); reflexivity.
Qed.
Lemma signal_attrs_ok db m s : goods db -> In m (db_messages db) -> In s (m_signals m) -> attrs_ok (D2 db) (Some "SG_") (signal_attrs (ren_sig db m s)) = true.
Proof.
  intros H I J. pose proof (good_signal_in _ _ _ H I J) as GS. unfold good_signal in GS. splitb.
  assert (O : attrs_ok (D2 db) (Some "SG_") (s_attrs (ren_sig db m s)) = true).
  { apply long_fits; [exact H|assumption|assumption|]. exact (signal_long_ok db m s H I J). }
  unfold signal_attrs. change (s_initial (ren_sig db m s)) with (s_initial s). destruct (s_initial s) as [v|] eqn:E; [|apply attrs_ok_del, O]. apply attrs_ok_set; [exact O|].
  destruct (start_retype _ _ _ _ H I J E) as (d & G & T & R). unfold attr_ok. cbn [fst snd a_def a_value]. rewrite G, R, T. reflexivity.
Qed.
Lemma ren_sig_nodup db m s : goods db -> In m (db_messages db) -> In s (m_signals m) -> NoDup (map fst (s_attrs (ren_sig db m s))).
Proof.
  intros H I J. pose proof (good_signal_in _ _ _ H I J) as GS. unfold good_signal in GS. splitb. apply (attrs_ok_nodup (D2 db) (Some "SG_")).
  apply long_fits; [exact H|assumption|assumption|]. exact (signal_long_ok db m s H I J).
Qed.
Lemma ren_sig_attrs_get db m s n : goods db -> In m (db_messages db) -> In s (m_signals m) -> n <> txt "SystemSignalLongSymbol" -> n <> txt "GenSigStartValue" ->
  cget (signal_attrs (ren_sig db m s)) n = cget (s_attrs s) n.
Proof.
  intros H I J N1 N2. rewrite signal_attrs_get by (apply ren_sig_nodup; assumption). rewrite chars_ne by congruence. unfold ren_sig, ren_signal, with_name_attrs, with_receivers. cbn [s_attrs s_name].
  pose proof (good_signal_in _ _ _ H I J) as GS. unfold good_signal in GS. splitb. rewrite get_long_attr by (eapply good_attrs_nodup; eassumption).
  rewrite ensured_kept by (apply good_named, H). rewrite chars_ne by (intros E; apply N1; symmetry; exact E). reflexivity.
Qed.
Lemma known_ok db n : known db n = true -> name_ok n = true /\ n <> vector_xxx /\ (In n (map n_name (db_nodes db)) \/ forallb (fun x => is_short (n_name x)) (db_nodes db) = true).
Proof.
  unfold known. intros H. splitb. split; [assumption|]. split.
  - intros ->. rewrite chars_eqb_refl in *. discriminate.
  - match goal with H : orb _ _ = true |- _ => apply orb_true_iff in H; destruct H as [H|H] end; [left; apply chars_in_iff|right]; assumption.
Qed.
Lemma signal_fits db m s : goods db -> In m (db_messages db) -> In s (m_signals m) -> fit_signal (D2 db) (ren_sig db m s) = true.
Proof.
  intros H I J. pose proof (signal_attrs_ok _ _ _ H I J) as O. pose proof (good_signal_in _ _ _ H I J) as GS. unfold good_signal in GS. splitb. unfold fit_signal. splitg; try assumption.
  - apply sh_name_ok; [apply (good_signals_nodup _ _ H I)|assumption].
  - cbn [ren_sig ren_signal with_name_attrs with_receivers s_receivers]. rewrite forallb_forall in *. intros x K. apply in_map_iff in K. destruct K as (n & <- & K).
    apply sh_name_ok; [apply H|]. apply (known_ok db). auto.
Qed.
Lemma filter_map {A B} (p : B -> bool) (f : A -> B) l : filter p (map f l) = map f (filter (fun x => p (f x)) l).
Proof. induction l as [|x l IH]; [reflexivity|]. cbn [map filter]. rewrite IH. destruct (p (f x)); reflexivity. Qed.
Lemma mux_fits db m s : goods db -> In m (db_messages db) -> In s (m_signals m) -> fit_mux (map (ren_sig db m) (m_signals m)) (ren_sig db m s) = true.
Proof.
  intros H I J. pose proof (good_signal_in _ _ _ H I J) as GS. unfold good_signal in GS. splitb. pose proof (gd_messages _ H _ I) as GM. unfold good_message in GM. splitb.
  match goal with H : forallb (fit_mux _) _ = true |- _ => rewrite forallb_forall in H; specialize (H s J); rename H into FM end.
  unfold fit_mux in *. rewrite filter_map. cbn [ren_sig ren_signal with_name_attrs with_receivers s_is_mux s_mux_ids s_mux_signal]. destruct (s_mux_ids s) as [ids|]; [|exact FM]. splitb. splitg; try assumption.
  destruct (s_mux_signal s) as [n|]; [|discriminate]. splitb. splitg; [assumption|]. cbn [opt_ok] in *.
  destruct (filter s_is_mux (m_signals m)) as [|u [|u' r]] eqn:F; cbn [map]; try assumption. cbn [ren_sig ren_signal with_name_attrs with_receivers s_name]. splitb. splitg; [|assumption].
  match goal with H : chars_eqb n (s_name u) = true |- _ => apply chars_eqb_eq in H; subst n end. rewrite sh_short; [apply chars_eqb_refl|apply (good_signals_nodup _ _ H I)|assumption].
Qed.

(** ** Messages *)
Lemma good_message_in db m : goods db -> In m (db_messages db) -> good_message db m = true.
Proof. intros H I. exact (gd_messages _ H m I). Qed.
Lemma ren_message_attrs db m : m_attrs (ren_message shorten db m) = long_attr (LM db) (m_attrs m) (m_name m) (message_short shorten db (m_name m)).
Proof. reflexivity. Qed.
Lemma ren_message_ok db m : goods db -> In m (db_messages db) -> attrs_ok (D2 db) (Some "BO_") (m_attrs (ren_message shorten db m)) = true.
Proof.
  intros H I. pose proof (good_message_in _ _ H I) as G. unfold good_message in G. splitb. rewrite ren_message_attrs.
  apply long_fits; [exact H|assumption|assumption|exact (message_long_ok db m H I)].
Qed.
Lemma ren_message_get db m n : goods db -> In m (db_messages db) -> n <> txt "SystemMessageLongSymbol" -> cget (m_attrs (ren_message shorten db m)) n = cget (m_attrs m) n.
Proof.
  intros H I N. pose proof (good_message_in _ _ H I) as G. unfold good_message in G. splitb. rewrite ren_message_attrs.
  rewrite get_long_attr by (eapply good_attrs_nodup; eassumption). rewrite ensured_kept by (apply good_named, H). rewrite chars_ne by (intros E; apply N; symmetry; exact E). reflexivity.
Qed.
Definition cycle_attrs defs m : attrs :=
  match cget defs (txt "GenMsgCycleTime") with
  | Some d => if negb (opt_value_eqb (or_zero (m_cycle_time m)) (d_default d)) then cset (m_attrs m) (txt "GenMsgCycleTime") (Attr (or_zero (m_cycle_time m)) d)
              else cdel (m_attrs m) (txt "GenMsgCycleTime")
  | None => cdel (m_attrs m) (txt "GenMsgCycleTime")
  end.
Definition format_attrs defs m a : result attrs :=
  match cget defs (txt "VFrameFormat") with
  | None => Ok a
  | Some d =>
      let* d := enum_frame_format d in
      match index_of (frame_format_name m) (d_choices d) with
      | Some i => if negb (opt_value_eqb (AStr (frame_format_name m)) (d_default d))
                  then Ok (cset a (txt "VFrameFormat") (Attr (AStr (decimal (Z.of_nat i))) d)) else Ok a
      | None => Ok a
      end
  end.
Lemma message_attrs_split defs m : message_attrs defs m = format_attrs defs m (cycle_attrs defs m). Proof. reflexivity. Qed.
Definition cycle_int m : Z := match m_cycle_time m with Some (AInt z) => z | _ => 0 end.
Lemma or_zero_cycle m : opt_ok (fun v => match v with AInt _ => true | _ => false end) (m_cycle_time m) = true -> or_zero (m_cycle_time m) = AInt (cycle_int m).
Proof.
  unfold cycle_int. destruct (m_cycle_time m) as [[z| |]|]; cbn [opt_ok or_zero falsy]; try discriminate; [|reflexivity]. intros _. destruct (Z.eqb_spec z 0) as [->|]; reflexivity.
Qed.
Lemma cycle_def db d : goods db -> cget (D2 db) (txt "GenMsgCycleTime") = Some d ->
  d_name d = txt "GenMsgCycleTime" /\ is_int_type (d_type d) = true /\ d_kind d = Some "BO_" /\ (forall v, d_default d = Some v -> exists z, v = AInt z).
Proof.
  intros H G. destruct (good_defs_in _ _ _ (D2_good shorten _ H) G) as (N & O & _).
  assert (S : (is_int_type (d_type d) && kind_eqb (d_kind d) (Some "BO_")) = true).
  { apply (good_standard (D2 db) "GenMsgCycleTime" (fun d => is_int_type (d_type d) && kind_eqb (d_kind d) (Some "BO_"))); [apply D2_good, H| |exact G]. cbn [standard In]. do 4 right. left. reflexivity. }
  apply andb_true_iff in S. destruct S as [S1 S2]. apply kind_eqb_eq in S2. repeat split; try assumption. intros v E. unfold def_ok in O. splitb.
  match goal with H : opt_ok (default_ok _) _ = true |- _ => rewrite E in H; cbn [opt_ok] in H; unfold default_ok in H; rewrite S1 in H end. destruct v; try discriminate. eauto.
Qed.
Lemma retype_int d z : is_int_type (d_type d) = true -> retype (d_type d) (AInt z) = Some (AInt z).
Proof. intros T. unfold retype. rewrite T. reflexivity. Qed.
Lemma cycle_attrs_get defs m n : NoDup (map fst (m_attrs m)) -> n <> txt "GenMsgCycleTime" -> cget (cycle_attrs defs m) n = cget (m_attrs m) n.
Proof.
  intros ND N. unfold cycle_attrs. destruct (cget defs _); [destruct (negb _)|]; rewrite ?get_cset, ?get_cdel by exact ND; rewrite chars_ne by congruence; reflexivity.
Qed.
Lemma int_type_string d : is_int_type (d_type d) = true -> type_is d "STRING" = false. Proof. intros H. apply int_not_string, H. Qed.
Lemma cycle_ok db m : goods db -> In m (db_messages db) -> attrs_ok (D2 db) (Some "BO_") (cycle_attrs (D2 db) (ren_message shorten db m)) = true.
Proof.
  intros H I. pose proof (ren_message_ok _ _ H I) as O. unfold cycle_attrs. destruct (cget (D2 db) (txt "GenMsgCycleTime")) as [d|] eqn:G; [|apply attrs_ok_del, O].
  destruct (negb _); [|apply attrs_ok_del, O]. destruct (cycle_def _ _ H G) as (N & T & K & _). apply attrs_ok_set; [exact O|].
  pose proof (good_message_in _ _ H I) as GM. unfold good_message in GM. splitb. change (m_cycle_time (ren_message shorten db m)) with (m_cycle_time m). rewrite or_zero_cycle by assumption.
  unfold attr_ok, has_kind. cbn [fst snd a_def a_value]. rewrite N, K, G, (retype_int _ _ T), (int_type_string _ T). reflexivity.
Qed.
Lemma has_cycle_in db m v : In m (db_messages db) -> m_cycle_time m = Some v -> has_cycle db = true.
Proof. intros I E. unfold has_cycle. apply existsb_exists. exists m. rewrite E. auto. Qed.
Lemma int_def_view d : is_int_type (d_type d) = true -> view_def d = d.
Proof. intros T. apply int_not_string in T. unfold view_def. destruct T as (_ & ->). reflexivity. Qed.
Lemma cycle_back db m a : goods db -> In m (db_messages db) ->
  cget a (txt "GenMsgCycleTime") = cget (cycle_attrs (D2 db) (ren_message shorten db m)) (txt "GenMsgCycleTime") ->
  cycle_time_of (vdefs (D2 db)) (vattrs (D2 db) a) = match m_cycle_time m with Some (AInt z) => if z =? 0 then None else Some (AInt z) | c => c end.
Proof.
  intros H I A. pose proof (good_message_in _ _ H I) as GM. unfold good_message in GM. splitb.
  assert (E : match m_cycle_time m with Some (AInt z) => if z =? 0 then None else Some (AInt z) | c => c end = if cycle_int m =? 0 then None else Some (AInt (cycle_int m))).
  { unfold cycle_int. destruct (m_cycle_time m) as [[z| |]|]; try discriminate; reflexivity. }
  rewrite E. unfold cycle_time_of. rewrite vdefs_get, vattrs_get, A. clear A. unfold cycle_attrs. change (m_cycle_time (ren_message shorten db m)) with (m_cycle_time m).
  rewrite or_zero_cycle by assumption. pose proof (attrs_ok_nodup _ _ _ (ren_message_ok _ _ H I)) as ND.
  destruct (cget (D2 db) (txt "GenMsgCycleTime")) as [d|] eqn:G; cbn [option_map].
  - destruct (cycle_def _ _ H G) as (N & T & K & DF). rewrite (int_def_view _ T). destruct (d_default d) as [v|] eqn:D; cbn [opt_value_eqb].
    + destruct (DF _ eq_refl) as (z & ->). cbn [value_eqb]. destruct (Z.eqb_spec (cycle_int m) z) as [<-|NE]; cbn [negb].
      * rewrite get_cdel, chars_eqb_refl by exact ND. reflexivity.
      * rewrite get_cset, chars_eqb_refl. cbn [option_map view_attr fst snd a_value]. rewrite G, (retype_int _ _ T). reflexivity.
    + cbn [negb]. rewrite get_cset, chars_eqb_refl. cbn [option_map view_attr fst snd a_value]. rewrite G, (retype_int _ _ T). reflexivity.
  - unfold cycle_int. destruct (m_cycle_time m) as [v|] eqn:C; [|reflexivity]. destruct (D2_cycle shorten _ H (has_cycle_in _ _ _ I C)) as (d & G'). congruence.
Qed.
(** The frame format *)
Lemma formats_enum d ch df : formats d = Some (ch, df) -> d_name d = txt "VFrameFormat" -> d_kind d = Some "BO_" ->
  exists d', enum_frame_format d = Ok d' /\ d_choices d' = ch /\ d_default d' = Some (AStr df) /\ type_is d' "STRING" = false /\ d_name d' = txt "VFrameFormat" /\ d_kind d' = Some "BO_" /\
             is_int_type (d_type d) || chars_eqb (d_type d) (txt "ENUM") = true /\ type_is d "STRING" = false /\ view_def d = d.
Proof.
  unfold formats, type_is. intros F N K. destruct (cspec (d_type d) (txt "ENUM")) as [T|].
  - destruct (d_default d) as [[| |s]|] eqn:D; try discriminate. injection F as <- <-. exists d. unfold enum_frame_format, type_is, view_def. rewrite T. repeat split; auto.
  - destruct (cspec (d_type d) (txt "INT")) as [T|]; [|discriminate]. destruct (d_default d) as [[i| |]|] eqn:D; try discriminate.
    destruct (Z.leb_spec 0 i) as [P|]; [|discriminate]. destruct (nth_error frame_formats (Z.to_nat i)) as [c|] eqn:E; [|discriminate]. cbn [option_map] in F. injection F as <- <-.
    unfold enum_frame_format, type_is, view_def. rewrite T, D. change (chars_eqb (txt "INT") (txt "INT")) with true. cbn [bind].
    destruct (Z.ltb_spec i 0) as [|_]; [lia|]. rewrite E. destruct (Z.ltb_spec i (- zlen frame_formats)) as [L|_]; [exfalso; clear - L P; unfold zlen in L; lia|].
    eexists. split; [reflexivity|]. repeat split; auto.
Qed.
Lemma format_def db d : goods db -> cget (D2 db) (txt "VFrameFormat") = Some d -> d_name d = txt "VFrameFormat" /\ d_kind d = Some "BO_".
Proof.
  intros H G. destruct (good_defs_in _ _ _ (D2_good shorten _ H) G) as (N & _). split; [exact N|].
  assert (S : (some (formats d) && kind_eqb (d_kind d) (Some "BO_")) = true).
  { apply (good_standard (D2 db) "VFrameFormat" (fun d => some (formats d) && kind_eqb (d_kind d) (Some "BO_"))); [apply D2_good, H| |exact G]. cbn [standard In]. do 6 right. left. reflexivity. }
  apply andb_true_iff in S. apply kind_eqb_eq, S.
Qed.
Lemma all_formats_D2 db : goods db -> match cget (D2 db) (txt "VFrameFormat") with Some d => exists ch df, formats d = Some (ch, df) /\ all_formats db = Some (ch, df) | None => all_formats db = None end.
Proof.
  intros H. pose proof (D2_format shorten _ H) as E. unfold all_formats. destruct (cget (db_definitions db) (txt "VFrameFormat")) as [d|] eqn:G.
  - rewrite E.
    assert (S : (some (formats d) && kind_eqb (d_kind d) (Some "BO_")) = true).
    { apply (good_standard (db_definitions db) "VFrameFormat" (fun d => some (formats d) && kind_eqb (d_kind d) (Some "BO_"))); [exact (gd_defs _ H)| |exact G]. cbn [standard In]. do 6 right. left. reflexivity. }
    apply andb_true_iff in S. destruct (formats d) as [[ch df]|]; [eauto|]. destruct S. discriminate.
  - destruct (is_can_fd db); rewrite E; [|reflexivity]. exists frame_formats, (txt "StandardCAN"). split; reflexivity.
Qed.
Lemma frame_format_text m : frame_format_name m = txt (format_text m).
Proof. unfold frame_format_name, format_text. destruct (m_j1939 m), (m_fd m), (m_extended m); reflexivity. Qed.
Lemma index_of_go x : forall l k, chars_in x l = true -> exists i,
  (fix go (l : list chars) (i : nat) := match l with [] => None | y :: r => if chars_eqb x y then Some i else go r (S i) end) l k = Some (k + i)%nat /\ nth_error l i = Some x.
Proof.
  induction l as [|y l IH]; intros k; [discriminate|]. unfold chars_in. cbn [existsb]. fold (chars_in x l). destruct (cspec x y) as [->|].
  - intros _. exists O. rewrite Nat.add_0_r. auto.
  - cbn [orb]. intros C. destruct (IH (S k) C) as (i & E & N'). exists (S i). rewrite E, Nat.add_succ_r. auto.
Qed.
Lemma index_of_in x l : chars_in x l = true -> exists i, index_of x l = Some i /\ nth_error l i = Some x.
Proof. exact (index_of_go x l 0%nat). Qed.
Lemma py_index_nat {A} (l : list A) i x : nth_error l i = Some x -> py_index l (Z.of_nat i) = Ok x.
Proof.
  intros E. unfold py_index. destruct (Z.ltb_spec (Z.of_nat i) (- zlen l)) as [L|_]; [exfalso; clear - L; unfold zlen in L; lia|]. destruct (Z.ltb_spec (Z.of_nat i) 0) as [L|_]; [lia|].
  rewrite Nat2Z.id, E. reflexivity.
Qed.
Lemma format_ok db m a : goods db -> In m (db_messages db) -> attrs_ok (D2 db) (Some "BO_") a = true -> cget a (txt "VFrameFormat") = cget (m_attrs m) (txt "VFrameFormat") ->
  exists a', format_attrs (D2 db) (ren_message shorten db m) a = Ok a' /\ attrs_ok (D2 db) (Some "BO_") a' = true /\
    (forall n, n <> txt "VFrameFormat" -> cget a' n = cget a n) /\
    exists ff, frame_format_of (vdefs (D2 db)) (vattrs (D2 db) a') = Ok ff /\
      (match ff with Some f => chars_eqb f (txt "J1939PG") | None => false end) = m_j1939 m /\ (match ff with Some f => ends_with (txt "CAN_FD") f | None => false end) = m_fd m.
Proof.
  intros H I O A. pose proof (good_message_in _ _ H I) as GM. unfold good_message in GM. splitb.
  match goal with H : good_format _ _ = true |- _ => unfold good_format in H end. splitb.
  unfold format_attrs, frame_format_of. rewrite vdefs_get. pose proof (all_formats_D2 _ H) as AF.
  assert (TX : chars_eqb (txt (format_text m)) (txt "J1939PG") = m_j1939 m /\ ends_with (txt "CAN_FD") (txt (format_text m)) = m_fd m).
  { unfold format_text. destruct (m_j1939 m), (m_fd m), (m_extended m); try discriminate; split; reflexivity. }
  destruct (cget (D2 db) (txt "VFrameFormat")) as [d|] eqn:G; cbn [option_map].
  - destruct AF as (ch & df & F & AF). rewrite AF in *. destruct (format_def _ _ H G) as (N & K). destruct (formats_enum _ _ _ F N K) as (d' & E & E1 & E2 & E3 & E4 & E5 & E6 & E7 & E8).
    rewrite E, E8. rewrite E. cbn [bind]. splitb. change (frame_format_name (ren_message shorten db m)) with (frame_format_name m). rewrite frame_format_text, E1, E2.
    match goal with H : chars_in _ ch = true |- _ => destruct (index_of_in _ _ H) as (i & IX & NX) end. rewrite IX. cbn [opt_value_eqb value_eqb].
    destruct (cspec (txt (format_text m)) df) as [ED|ND]; cbn [negb].
    + exists a. split; [reflexivity|]. split; [exact O|]. split; [reflexivity|]. exists (Some df). rewrite vattrs_get, A. split; [|rewrite <- ED; exact TX].
      match goal with H : negb true || _ = true |- _ => cbn [negb orb] in H end.
      destruct (cget (m_attrs m) (txt "VFrameFormat")) as [x|] eqn:CX; cbn [option_map]; [|reflexivity].
      destruct (a_value x) as [j| |] eqn:VX; try discriminate. splitb. unfold view_attr. cbn [snd fst]. rewrite G, VX. unfold retype. rewrite E6. cbn [a_value].
      destruct (nth_error ch (Z.to_nat j)) as [c|] eqn:NJ; [|discriminate]. cbn [opt_chars_eqb] in *. match goal with H : chars_eqb c df = true |- _ => apply chars_eqb_eq in H; subst c end.
      match goal with H : (0 <=? j) = true |- _ => apply Z.leb_le in H; rewrite <- (Z2Nat.id j H) end. rewrite (py_index_nat _ _ _ NJ). reflexivity.
    + exists (cset a (txt "VFrameFormat") (Attr (AStr (decimal (Z.of_nat i))) d')).
      assert (RT : retype (d_type d) (AStr (decimal (Z.of_nat i))) = Some (AInt (Z.of_nat i))). { unfold retype. rewrite E6, number_decimal, int_decimal. reflexivity. }
      split; [reflexivity|]. split; [|split].
      * apply attrs_ok_set; [exact O|]. unfold attr_ok, has_kind. cbn [fst snd a_def a_value]. rewrite E4, E5, E3, G, E7, RT. reflexivity.
      * intros n NE. rewrite get_cset, chars_ne by congruence. reflexivity.
      * exists (Some (txt (format_text m))). split; [|exact TX]. rewrite vattrs_get, get_cset, chars_eqb_refl. unfold view_attr. cbn [option_map fst snd a_value]. rewrite G, RT. cbn [a_value].
        rewrite (py_index_nat _ _ _ NX). reflexivity.
  - rewrite AF in *. exists a. split; [reflexivity|]. split; [exact O|]. split; [reflexivity|]. exists None. split; [reflexivity|].
    destruct (m_j1939 m), (m_fd m); try discriminate; split; reflexivity.
Qed.
(** What is written for a message and what is read *)
Lemma message_written db m : goods db -> In m (db_messages db) -> exists a, message_attrs (D2 db) (ren_message shorten db m) = Ok a /\ attrs_ok (D2 db) (Some "BO_") a = true /\
  (forall n, ~ In n (map txt ["SystemMessageLongSymbol"; "GenMsgCycleTime"; "VFrameFormat"]) -> cget a n = cget (m_attrs m) n) /\
  long_name "SystemMessageLongSymbol" (vattrs (D2 db) a) (m_name (ren_message shorten db m)) = m_name m /\
  cycle_time_of (vdefs (D2 db)) (vattrs (D2 db) a) = (match m_cycle_time m with Some (AInt z) => if z =? 0 then None else Some (AInt z) | c => c end) /\
  exists ff, frame_format_of (vdefs (D2 db)) (vattrs (D2 db) a) = Ok ff /\
      (match ff with Some f => chars_eqb f (txt "J1939PG") | None => false end) = m_j1939 m /\ (match ff with Some f => ends_with (txt "CAN_FD") f | None => false end) = m_fd m.
Proof.
  intros H I. pose proof (good_message_in _ _ H I) as GM. unfold good_message in GM. splitb. pose proof (attrs_ok_nodup _ _ _ (ren_message_ok _ _ H I)) as ND.
  assert (N1 : txt "VFrameFormat" <> txt "GenMsgCycleTime") by discriminate. assert (N2 : txt "VFrameFormat" <> txt "SystemMessageLongSymbol") by discriminate.
  destruct (format_ok db m (cycle_attrs (D2 db) (ren_message shorten db m)) H I) as (a & E & O & K & FF).
  { apply cycle_ok; assumption. }
  { rewrite cycle_attrs_get by assumption. apply ren_message_get; assumption. }
  exists a. split; [rewrite message_attrs_split; exact E|]. split; [exact O|]. split; [|split; [|split]].
  - intros n NI. rewrite K by (intros ->; apply NI; cbn [map In]; auto). rewrite cycle_attrs_get; [|exact ND|intros ->; apply NI; cbn [map In]; auto].
    apply ren_message_get; [assumption..|intros ->; apply NI; cbn [map In]; auto].
  - unfold long_name. rewrite vattrs_get, K by discriminate. rewrite cycle_attrs_get; [|exact ND|discriminate].
    rewrite <- vattrs_get. apply (long_back db "BO_"); [apply ensured_kept, good_named, H|assumption|assumption|exact (message_long_ok db m H I)].
  - apply cycle_back; [exact H|exact I|]. apply K. discriminate.
  - exact FF.
Qed.
Lemma short_independent : (List.length (txt "VECTOR__INDEPENDENT_SIG_MSG") < 32)%nat. Proof. vm_compute. lia. Qed.
Lemma message_fits db m : goods db -> In m (db_messages db) -> fit_message (D2 db) (ren_message shorten db m) = true.
Proof.
  intros H I. pose proof (good_message_in _ _ H I) as GM. unfold good_message in GM. splitb. destruct (message_written _ _ H I) as (a & EA & OA & _).
  unfold fit_message. rewrite EA. rewrite ren_message_signals. splitg; try assumption.
  - apply sh_name_ok; [exact (gd_message_names _ H)|assumption].
  - change (m_name (ren_message shorten db m)) with (message_short shorten db (m_name m)).
    apply negb_true_iff, chars_ne. apply (sh_not shorten _ (gd_message_names _ H) _ _ eq_refl short_independent).
    match goal with H : negb (chars_eqb (m_name m) _) = true |- _ => intros E; rewrite E in H; discriminate H end.
  - cbn [ren_message ren_signals ren_name ren_nodes_in with_signals with_message_name m_senders]. rewrite forallb_forall in *. intros x K. apply in_map_iff in K. destruct K as (n & <- & K).
    apply sh_name_ok; [apply H|]. apply (known_ok db). auto.
  - apply (nodup_by_intro _ cspec). rewrite map_map. unfold ren_sig, ren_signal, with_name_attrs, with_receivers. cbn [s_name].
    rewrite <- (map_map s_name (sh shorten (names_of m))). apply sh_nodup; [exact (good_signals_nodup _ _ H I)|trivial|exact (good_signals_nodup _ _ H I)].
  - rewrite forallb_forall. intros x K. apply in_map_iff in K. destruct K as (s & <- & K). apply signal_fits; assumption.
  - rewrite forallb_forall. intros x K. apply in_map_iff in K. destruct K as (s & <- & K). apply mux_fits; assumption.
  - cbn [ren_message ren_signals ren_name ren_nodes_in with_signals with_message_name m_groups]. destruct (m_groups m) as [gs|]; [|reflexivity]. cbn [option_map opt_ok] in *.
    match goal with H : forallb _ gs = true |- _ => rewrite forallb_forall in H; rename H into GG end. rewrite forallb_forall. intros x K. apply in_map_iff in K. destruct K as (g & <- & K).
    specialize (GG g K). apply andb_true_iff in GG. apply GG.
Qed.
End GoodFit.
