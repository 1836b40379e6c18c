(** DbcCore: the file that is written for a database that fits is read as the database of DbcView. *)
From Coq Require Import Ascii Permutation.
From Verif Require Import Base CSource CNames DictLemmas Regex DecText DbcNames Prop_DbcNames DbcToken DbcLex DbcStmt DbcPieces DbcParse DbcGrammar DbcDump DbcLoad DbcTables DbcFit DbcWrite DbcRead DbcView.
Local Open Scope string_scope.
Local Open Scope Z_scope.
Local Open Scope list_scope.

Lemma filter_perm {A} (f : A -> bool) l l' : Permutation l l' -> Permutation (filter f l) (filter f l').
Proof.
  induction 1 as [|x l l' P IH|x y l|l1 l2 l3 P1 IH1 P2 IH2]; cbn [filter].
  - constructor.
  - destruct (f x); [constructor|]; exact IH.
  - destruct (f x), (f y); try apply Permutation_refl. constructor.
  - eapply Permutation_trans; eassumption.
Qed.
Lemma filter_map {A B} (f : B -> bool) (g : A -> B) l : filter f (map g l) = map g (filter (fun x => f (g x)) l).
Proof. induction l as [|x l IH]; [reflexivity|]. cbn [map filter]. destruct (f (g x)); [cbn [map]|]; rewrite IH; reflexivity. Qed.

Section Core.
Context {FL : Floats} {LW : FloatLaws FL} (set_list : list Z -> list Z).
Implicit Types (db : database) (m : dmessage) (s : dsignal) (defs : definitions).

(** ** Multiplexing *)
Lemma ends_decimal i : 0 <= i -> ends_in_M ("m"%char :: decimal i) = false.
Proof.
  intros H. unfold ends_in_M. cbn [rev]. pose proof (decimal_digits i H) as D. destruct (rev (decimal i)) as [|c r] eqn:E.
  - apply (f_equal (@rev _)) in E. rewrite rev_involutive in E. exfalso. exact (decimal_nonnil i E).
  - cbn [app]. assert (I : In c (decimal i)). { rewrite in_rev, E. left. reflexivity. } rewrite forallb_forall in D. specialize (D c I).
    destruct (Ascii.eqb_spec c "M") as [->|]; [discriminate D|reflexivity].
Qed.
Lemma mark_is_mux l s : fit_mux l s = true -> is_mux_field (mux_mark s) = s_is_mux s.
Proof.
  unfold fit_mux, mux_mark. intros H. destruct (s_is_mux s); [reflexivity|]. destruct (s_mux_ids s) as [[|i r]|]; [reflexivity| |reflexivity]. cbn [is_mux_field].
  apply ends_decimal. splitb. cbn [forallb] in *. splitb. apply Z.leb_le. assumption.
Qed.
Lemma only_mux_read m : (forall s, In s (m_signals m) -> fit_mux (m_signals m) s = true) -> only_mux (map sg_of (dump_order (m_signals m))) = the_mux (m_signals m).
Proof.
  intros H. unfold only_mux, the_mux. rewrite filter_map.
  assert (E : filter (fun s => is_mux_field (ss_mux (sg_of s))) (dump_order (m_signals m)) = filter s_is_mux (dump_order (m_signals m))).
  { apply filter_ext_in. intros s I. rewrite dump_order_in in I. cbn [sg_of ss_mux]. apply (mark_is_mux (m_signals m)), H, I. }
  rewrite E. pose proof (filter_perm s_is_mux _ _ (dump_order_perm (m_signals m))) as P.
  destruct (filter s_is_mux (m_signals m)) as [|u [|v r]].
  - apply Permutation_sym, Permutation_nil in P. rewrite P. reflexivity.
  - apply Permutation_sym, Permutation_length_1_inv in P. rewrite P. reflexivity.
  - apply Permutation_length in P. destruct (filter s_is_mux (dump_order (m_signals m))) as [|u' [|v' r']]; try discriminate P. reflexivity.
Qed.
Definition mux_item s : list (chars * (chars * list Z)) :=
  match s_mux_ids s with
  | None | Some [] => []
  | Some ids => [(match s_mux_signal s with Some n => n | None => txt "None" end, (s_name s, range_ids (ranges_of ids)))]
  end.
Lemma mux_item_name s x : In x (mux_item s) -> fst (snd x) = s_name s.
Proof. unfold mux_item. destruct (s_mux_ids s) as [[|i r]|]; intros []; [subst; reflexivity|contradiction]. Qed.
Lemma mux_items_nodup m : NoDup (map s_name (m_signals m)) -> NoDup (map (fun x => fst (snd x)) (mux_items m)).
Proof.
  unfold mux_items. intros N. change (NoDup (map (fun x : chars * (chars * list Z) => fst (snd x)) (flat_map mux_item (m_signals m)))).
  rewrite map_flat_map. apply (nodup_flat _ s_name (fun x => x)).
  - exact N.
  - intros s _. unfold mux_item. destruct (s_mux_ids s) as [[|i r]|]; cbn [map]; repeat constructor. intros [].
  - intros s y _ I. apply in_map_iff in I. destruct I as (x & <- & I). apply mux_item_name, I.
Qed.
Lemma mux_item_of m s x : NoDup (map s_name (m_signals m)) -> In s (m_signals m) -> In x (mux_items m) -> fst (snd x) = s_name s -> In x (mux_item s).
Proof.
  intros N I J E. change (In x (flat_map mux_item (m_signals m))) in J. apply in_flat_map in J. destruct J as (s' & J & K).
  rewrite (mux_item_name _ _ K) in E. rewrite (NoDup_map_inj s_name _ _ _ N J I E) in K. exact K.
Qed.
Lemma find_mux m s : NoDup (map s_name (m_signals m)) -> In s (m_signals m) -> find (fun x => chars_eqb (fst (snd x)) (s_name s)) (mux_items m) = hd_error (mux_item s).
Proof.
  intros N I. destruct (find (fun x => chars_eqb (fst (snd x)) (s_name s)) (mux_items m)) as [x|] eqn:E.
  - apply find_some in E. destruct E as [J E]. apply chars_eqb_eq in E. apply (mux_item_of m s) in J; [|assumption..].
    unfold mux_item in *. destruct (s_mux_ids s) as [[|i r]|]; [destruct J| |destruct J]. destruct J as [<-|[]]. reflexivity.
  - destruct (mux_item s) as [|x r] eqn:M; [reflexivity|]. exfalso. assert (J : In x (mux_items m)).
    { change (In x (flat_map mux_item (m_signals m))). apply in_flat_map. exists s. split; [exact I|]. rewrite M. left. reflexivity. }
    apply (find_none _ _ E) in J. cbn beta in J. rewrite (mux_item_name s) in J by (rewrite M; left; reflexivity). rewrite chars_eqb_refl in J. discriminate J.
Qed.
Lemma mux_entry m s k : NoDup (map s_name (m_signals m)) -> In s (m_signals m) ->
  match cget (nest chars_eqb (mux_items m)) k with Some e => or_empty (cget e (s_name s)) | None => [] end =
  match mux_item s with x :: _ => if chars_eqb (fst x) k then snd (snd x) else [] | [] => [] end.
Proof.
  intros N I. pose proof (nest_entry (mux_items m) k (s_name s) (mux_items_nodup m N)) as E.
  assert (E' : match cget (nest chars_eqb (mux_items m)) k with Some e => or_empty (cget e (s_name s)) | None => [] end = or_empty (cget (pick k (mux_items m)) (s_name s))).
  { rewrite <- E. destruct (cget (nest chars_eqb (mux_items m)) k); reflexivity. }
  rewrite E'. clear E E'. destruct (cget (pick k (mux_items m)) (s_name s)) as [v|] eqn:G; cbn [or_empty].
  - apply (get_in _ cspec), pick_in in G. apply (mux_item_of m s) in G; [|assumption..|reflexivity]. destruct (mux_item s) as [|x [|y r]] eqn:M; [destruct G| |].
    + destruct G as [->|[]]. cbn [fst snd]. rewrite chars_eqb_refl. reflexivity.
    + unfold mux_item in M. destruct (s_mux_ids s) as [[|i q]|]; discriminate M.
  - destruct (mux_item s) as [|x r] eqn:M; [reflexivity|]. destruct (cspec (fst x) k) as [E|]; [|reflexivity]. exfalso.
    apply (get_none _ cspec) in G. apply G. apply in_map_iff. exists (s_name s, snd (snd x)). split; [reflexivity|]. apply pick_in.
    change (In (k, (s_name s, snd (snd x))) (flat_map mux_item (m_signals m))). apply in_flat_map. exists s. split; [exact I|]. rewrite M. left.
    assert (NM : fst (snd x) = s_name s). { apply mux_item_name. rewrite M. left. reflexivity. } destruct x as (a & b & c). cbn [fst snd] in *. congruence.
Qed.
Lemma frame_mux_read db m : fits db -> In m (db_messages db) -> frame_mux (mux_list db) (frame m) = if extended_mux (db_messages db) then nest chars_eqb (mux_items m) else [].
Proof.
  intros H I. unfold frame_mux, mux_list. destruct (extended_mux (db_messages db)); [|reflexivity]. rewrite (of_frame_flat frame mux_items); [reflexivity|exact (f_frames _ H)|exact I].
Qed.
Lemma extended_many db m : In m (db_messages db) -> (1 < List.length (filter s_is_mux (m_signals m)))%nat -> extended_mux (db_messages db) = true.
Proof. intros I L. unfold extended_mux. apply existsb_exists. exists m. split; [exact I|]. apply Nat.ltb_lt in L. rewrite L. reflexivity. Qed.
Lemma mux_read db m s : fits db -> In m (db_messages db) -> In s (m_signals m) ->
  let mv := frame_mux (mux_list db) (frame m) in
  signal_mux_ids set_list mv (the_mux (m_signals m)) (s_name s) (mux_mark s) = Ok (option_map (vids set_list (extended_mux (db_messages db)) (m_signals m)) (s_mux_ids s)) /\
  signal_mux_name mv (the_mux (m_signals m)) (s_name s) (mux_mark s) = s_mux_signal s.
Proof.
  intros H I J mv. pose proof (signal_names _ _ H I) as N. pose proof (fit_message_muxes _ _ _ (f_messages _ H _ I) J) as M. subst mv. rewrite frame_mux_read by assumption.
  set (ext := extended_mux (db_messages db)) in *.
  assert (X : forall k, match cget (if ext then nest chars_eqb (mux_items m) else []) k with Some e => or_empty (cget e (s_name s)) | None => [] end =
              if ext then match mux_item s with x :: _ => if chars_eqb (fst x) k then snd (snd x) else [] | [] => [] end else []).
  { intros k. destruct ext; [apply mux_entry; assumption|reflexivity]. }
  assert (Y : mux_of (if ext then nest chars_eqb (mux_items m) else []) (s_name s) = if ext then option_map fst (hd_error (mux_item s)) else None).
  { destruct ext; [|reflexivity]. rewrite nest_mux by (apply mux_items_nodup, N). rewrite find_mux by assumption. reflexivity. }
  pose proof (mark_is_mux _ _ M) as MM. unfold fit_mux in M. unfold signal_mux_ids, signal_mux_name, vids, the_mux in *.
  assert (SELF : forall u, filter s_is_mux (m_signals m) = [u] -> s_is_mux s = true -> s_name s = s_name u).
  { intros u F E. assert (K : In s (filter s_is_mux (m_signals m))) by (apply filter_In; auto). rewrite F in K. destruct K as [<-|[]]. reflexivity. }
  destruct (s_mux_ids s) as [[|i r]|] eqn:IDS; [discriminate M| |].
  - (* multiplexed *)
    splitb. destruct (s_mux_signal s) as [n|] eqn:MS; [|discriminate]. splitb.
    assert (IT : mux_item s = [(n, (s_name s, range_ids (ranges_of (i :: r))))]). { unfold mux_item. rewrite IDS, MS. reflexivity. } rewrite IT in X, Y. cbn [fst snd hd_error option_map] in X, Y.
    destruct (filter s_is_mux (m_signals m)) as [|u [|v q]] eqn:FM; [discriminate| |].
    + splitb. match goal with H : chars_eqb n _ = true |- _ => apply chars_eqb_eq in H; subst n end.
      match goal with H : negb (s_is_mux s) = true |- _ => apply negb_true_iff in H; rename H into NM end.
      unfold mux_mark in *. rewrite NM, IDS in *. cbn [is_mux_field] in MM. rewrite MM. change (Ascii.eqb "m" "m") with true. cbn iota. rewrite int_of_decimal. cbn [bind].
      rewrite X, chars_eqb_refl. cbn [firstn app option_map]. split; [reflexivity|]. destruct (cspec (s_name s) (s_name u)) as [E|]; [|reflexivity]. exfalso.
      assert (U : In u (filter s_is_mux (m_signals m))) by (rewrite FM; left; reflexivity). apply filter_In in U. destruct U as [U1 U2].
      rewrite (NoDup_map_inj s_name _ _ _ N J U1 E) in NM. congruence.
    + assert (E : ext = true). { apply (extended_many db m); [exact I|]. rewrite FM. cbn [List.length]. lia. } rewrite E in *. cbn [bind].
      rewrite Y, X, chars_eqb_refl. cbn [app option_map]. split.
      * destruct (range_ids (ranges_of (i :: r))) as [|z zs] eqn:R; [|reflexivity]. exfalso. destruct (C46_same_ids (i :: r)) as (rs & E1 & _ & E2); [discriminate|].
        unfold ranges_of in R. rewrite E1 in R. cbn [val] in R. rewrite R in E2. apply (E2 i). left. reflexivity.
      * unfold mux_mark. rewrite IDS. destruct (s_is_mux s); reflexivity.
  - (* not multiplexed *)
    destruct (s_mux_signal s) eqn:MS; [discriminate M|]. assert (IT : mux_item s = []) by (unfold mux_item; rewrite IDS; reflexivity). rewrite IT in X, Y. cbn [hd_error option_map] in Y.
    assert (Z0 : (if ext then @nil Z else []) = []) by (destruct ext; reflexivity). assert (Y0 : (if ext then @None chars else None) = None) by (destruct ext; reflexivity).
    rewrite Z0 in X. rewrite Y0 in Y.
    unfold mux_mark in *. rewrite IDS in *. destruct (filter s_is_mux (m_signals m)) as [|u [|v q]] eqn:FM; destruct (s_is_mux s) eqn:SM; cbn [bind option_map]; rewrite ?Y, ?X; cbn [app]; split; try reflexivity.
    + rewrite (SELF u eq_refl eq_refl). rewrite chars_eqb_refl. reflexivity.
Qed.

(** ** Signals and messages *)
Definition the_attrs db : attributes := nest okey_eqb (flat1 (vobjects db)).
Definition the_tables db : tables :=
  Tables (cdict db) (the_attrs db) (vdefs (dump_definitions db)) (choices_dict db) (sender_list db) (types_dict db) (mux_list db) (group_list db).
Lemma read_bound b : opt_ok num_ok b = true -> read_num (or_zero_text b) = Ok (match b with Some n => n | None => DInt 0 end).
Proof. destruct b as [n|]; cbn [opt_ok or_zero_text]; intros H; [apply read_num_text, H|]. apply (read_num_text (DInt 0)). reflexivity. Qed.
Lemma only_or_xxx l : (if only_xxx (or_xxx l) then [] else or_xxx l) = if only_xxx l then [] else l.
Proof. destruct l; reflexivity. Qed.
Lemma ok_val {A} (d : A) (r : result A) : is_ok r = true -> r = Ok (val d r).
Proof. destruct r; [reflexivity|discriminate]. Qed.
Lemma signal_read_back db m s : fits db -> reads db = true -> In m (db_messages db) -> In s (m_signals m) ->
  load_signal set_list (the_tables db) (frame m) (the_mux (m_signals m)) (sg_of s) = Ok (vsignal set_list db m s).
Proof.
  intros H R I J. pose proof (fit_message_signal _ _ _ (f_messages _ H _ I) J) as F. unfold fit_signal in F. splitb.
  destruct (mux_read db m s H I J) as [M1 M2].
  assert (RS : reads_signal (dump_definitions db) s = true).
  { unfold reads in R. splitb. match goal with H : forallb (reads_message _) _ = true |- _ => rewrite forallb_forall in H; specialize (H m I); unfold reads_message in H end. splitb.
    match goal with H : forallb (reads_signal _) _ = true |- _ => rewrite forallb_forall in H; exact (H s J) end. }
  unfold reads_signal in RS. splitb.
  unfold load_signal, the_tables. cbn [t_comments t_attrs t_defs t_choices t_senders t_types t_mux t_groups sg_of ss_name ss_mux ss_start ss_length ss_order ss_sign ss_scale ss_offset ss_min ss_max ss_unit ss_receivers].
  unfold the_attrs. rewrite attrs_read, attrs_signal by assumption. rewrite !int_of_decimal, !read_num_text by assumption. cbn [bind].
  rewrite (ok_val None (initial_value _)) by assumption. cbn [bind]. rewrite !read_bound by assumption. rewrite (ok_val None (spn_of _ _)) by assumption. rewrite M1, M2.
  unfold vsignal, vbound. fold (unlimited s). rewrite comment_signal by assumption.
  assert (S1 : signal_long (nest okey_eqb (flat1 (vobjects db))) (frame m) (s_name s) = long_name "SystemSignalLongSymbol" (sig_view_attrs (dump_definitions db) s) (s_name s)).
  { unfold signal_long. rewrite attrs_read, attrs_signal by assumption. reflexivity. }
  assert (S2 : dget zc_eqb (choices_dict db) (frame m, s_name s) = s_choices s) by (apply frame_pairs_get; [assumption|apply dump_order_perm|assumption..]).
  assert (S3 : match dget zc_eqb (types_dict db) (frame m, s_name s) with Some k => (k =? 1) || (k =? 2) | None => false end = s_float s).
  { unfold types_dict. rewrite (frame_pairs_get type_code (fun l => l)); [|assumption|intros; apply Permutation_refl|assumption..]. unfold type_code. destruct (s_float s); [|reflexivity].
    destruct (s_length s =? 32); reflexivity. }
  assert (S4 : forall l, map (node_long (nest okey_eqb (flat1 (vobjects db)))) l = map (vname db) l). { intros l. apply map_ext. intros n. apply node_long_read, H. }
  rewrite S1, S2, S3, S4, only_or_xxx.
  rewrite (mark_is_mux (m_signals m) s) by (eapply fit_message_muxes; [eapply f_messages; eassumption|assumption]).
  assert (S5 : chars_eqb (if s_big s then decimal 0 else decimal 1) (txt "0") = s_big s) by (destruct (s_big s); vm_compute; reflexivity). rewrite S5.
  assert (S6 : Ascii.eqb (if s_signed s then "-" else "+")%char "-" = s_signed s) by (destruct (s_signed s); reflexivity). rewrite S6.
  destruct (unlimited s); cbn [bind]; f_equal; f_equal; destruct (s_unit s) as [[|c u]|]; reflexivity.
Qed.
Lemma senders_back db m : fits db -> In m (db_messages db) ->
  fold_left add_new (of_frame (frame m) (sender_list db)) [node_long (the_attrs db) (hd vector_xxx (m_senders m))] =
  fold_left add_new (sender_items db m) [vname db (hd vector_xxx (m_senders m))].
Proof. intros H I. unfold sender_list. rewrite (of_frame_flat frame (sender_items db)) by (exact (f_frames _ H) || exact I). unfold the_attrs. rewrite node_long_read by exact H. reflexivity. Qed.
Lemma message_read_back db m : fits db -> reads db = true -> In m (db_messages db) -> load_message set_list (the_tables db) (message_of m) = Ok [vmessage set_list db m].
Proof.
  intros H R I. pose proof (f_messages _ H _ I) as F. pose proof F as F'. unfold fit_message in F'. splitb. unfold load_message, message_of.
  match goal with H : negb (chars_eqb _ _) = true |- _ => apply negb_true_iff in H; rewrite H end. unfold frame_text. rewrite int_of_decimal. cbn [bind].
  unfold reads in R. splitb. match goal with H : forallb (reads_message _) _ = true |- _ => pose proof H as RM; rewrite forallb_forall in H; specialize (H m I); unfold reads_message in H end. splitb.
  assert (A : attrs_of (t_attrs (the_tables db)) (KMsg (frame m)) = msg_view_attrs (dump_definitions db) m).
  { cbn [the_tables t_attrs]. unfold the_attrs. rewrite attrs_read by exact H. apply attrs_message; assumption. }
  rewrite A. cbn [the_tables t_defs]. rewrite (ok_val None (frame_format_of _ _)) by assumption. cbn [bind].
  rewrite only_mux_read by (intros s J; eapply fit_message_muxes; eassumption).
  rewrite (mapM_all _ (fun g => match find (fun s => chars_eqb (s_name s) (ss_name g)) (m_signals m) with Some s => vsignal set_list db m s | None => DSignal [] 0 0 false false None (DInt 0) (DInt 0) false None None None None None [] false None None None [] end)).
  2:{ intros g J. apply in_map_iff in J. destruct J as (s & <- & J). rewrite dump_order_in in J.
      assert (E : find (fun x => chars_eqb (s_name x) (ss_name (sg_of s))) (m_signals m) = Some s).
      { cbn [sg_of ss_name]. pose proof (signal_names _ _ H I) as N. clear - N J. induction (m_signals m) as [|x l IH]; [destruct J|]. cbn [map] in N. apply NoDup_cons_iff in N. destruct N as [N1 N2]. cbn [find].
        destruct (cspec (s_name x) (s_name s)) as [E|NE].
        - destruct J as [->|J]; [reflexivity|]. exfalso. apply N1. rewrite E. apply in_map, J.
        - destruct J as [->|J]; [congruence|]. apply IH; assumption. }
      rewrite E. apply signal_read_back; try assumption. unfold reads. apply andb_true_iff. split; assumption. }
  cbn [bind]. rewrite int0_of_decimal by (apply Z.leb_le; assumption). cbn [bind]. rewrite (ok_val None (send_type_of _ _)) by assumption. cbn [bind]. f_equal. f_equal.
  unfold vmessage. assert (FR : load_frame_id (frame m) = (m_id m, m_extended m)).
  { unfold frame. apply C48_frame_id. repeat match goal with H : (_ <=? _) = true |- _ => apply Z.leb_le in H | H : (_ <? _) = true |- _ => apply Z.ltb_lt in H end. split; assumption. }
  rewrite FR. cbn [fst snd]. cbn [the_tables t_comments t_senders t_attrs t_groups]. rewrite senders_back, comment_message by assumption. fold (sender_items db m).
  assert (G : frame_groups (group_list db) (frame m) = vgroups db m).
  { unfold frame_groups, group_list. rewrite (of_frame_flat frame (group_items db)) by (exact (f_frames _ H) || exact I). unfold group_items, vgroups.
    destruct (m_groups m) as [[|g gs]|]; reflexivity. }
  rewrite G. f_equal. f_equal. rewrite map_map. apply map_ext_in. intros s J. rewrite dump_order_in in J. cbn [sg_of ss_name].
  assert (E : find (fun x => chars_eqb (s_name x) (s_name s)) (m_signals m) = Some s).
  { pose proof (signal_names _ _ H I) as N. clear - N J. induction (m_signals m) as [|x l IH]; [destruct J|]. cbn [map] in N. apply NoDup_cons_iff in N. destruct N as [N1 N2]. cbn [find].
    destruct (cspec (s_name x) (s_name s)) as [E|NE].
    - destruct J as [->|J]; [reflexivity|]. exfalso. apply N1. rewrite E. apply in_map, J.
    - destruct J as [->|J]; [congruence|]. apply IH; assumption. }
  rewrite E. reflexivity.
Qed.

(** ** Relations *)
Definition id_low {A} (l : list A) : list A := l.
Definition msg_rel_items defs (l : msg_relations) : list (Z * (chars * (chars * attribute))) := flat (flat id_low) (vmsg_rels defs l).
Definition sig_rel_items defs (l : sig_relations) : list (Z * (chars * (chars * (chars * attribute)))) := flat (flat (flat id_low)) (vsig_rels defs l).
Lemma nonempty_map {A B} (f : A -> B) l : nonempty l = true -> map f l <> []. Proof. destruct l; [discriminate|intros _; discriminate]. Qed.
Lemma flat_nonempty {K X D} (low : list D -> list X) (l : list (K * list D)) : l <> [] -> (forall p, In p l -> low (snd p) <> []) -> flat low l <> [].
Proof. destruct l as [|p l]; [contradiction|]. intros _ H. unfold flat. cbn [flat_map]. specialize (H p (or_introl eq_refl)). destruct (low (snd p)); [contradiction|]. discriminate. Qed.
Lemma vnode_rels_build defs (l : list (chars * attrs)) : fit_node_rels defs l = true ->
  flat id_low (vnode_rels defs l) <> [] /\ fold_left (up chars_eqb leaf) (flat id_low (vnode_rels defs l)) [] = vnode_rels defs l.
Proof.
  intros H. pose proof (node_rels_in defs l) as IN. assert (G : forall p, In p (vnode_rels defs l) -> id_low (snd p) <> [] /\ fold_left leaf (id_low (snd p)) [] = snd p).
  { intros p I. unfold vnode_rels in I. apply in_map_iff in I. destruct I as (q & <- & I). destruct (IN q H I) as [_ F]. unfold fit_rel in F. splitb. cbn [snd id_low]. split.
    - apply nonempty_map. assumption.
    - apply leaf_build. rewrite vattrs_keys. eapply attrs_nodup. eassumption. }
  unfold fit_node_rels in H. splitb. split.
  - apply flat_nonempty; [apply nonempty_map; assumption|]. intros p I. apply G, I.
  - apply (build chars_eqb cspec leaf id_low); [|exact G]. unfold vnode_rels. rewrite map_map. cbn [fst]. apply (nodup_by_spec _ cspec). assumption.
Qed.
Lemma msg_rels_build defs l : fit_msg_rels defs l = true -> fold_left put_msg_rel (msg_rel_items defs l) [] = vmsg_rels defs l.
Proof.
  intros H. unfold fit_msg_rels in H. splitb. change put_msg_rel with (up Z.eqb (up chars_eqb (@leaf attribute))).
  apply (build Z.eqb zspec (up chars_eqb (@leaf attribute)) (flat id_low)).
  - unfold vmsg_rels. rewrite map_map. cbn [fst]. apply (nodup_by_spec _ zspec). assumption.
  - intros p I. unfold vmsg_rels in I. apply in_map_iff in I. destruct I as (q & <- & I). cbn [snd]. apply vnode_rels_build.
    match goal with H : forallb _ l = true |- _ => rewrite forallb_forall in H; apply H, I end.
Qed.
Lemma sig_rels_build defs l : fit_sig_rels defs l = true -> fold_left put_sig_rel (sig_rel_items defs l) [] = vsig_rels defs l.
Proof.
  intros H. unfold fit_sig_rels in H. splitb. change put_sig_rel with (up Z.eqb (up chars_eqb (up chars_eqb (@leaf attribute)))).
  apply (build Z.eqb zspec (up chars_eqb (up chars_eqb (@leaf attribute))) (flat (flat id_low))).
  - unfold vsig_rels. rewrite map_map. cbn [fst]. apply (nodup_by_spec _ zspec). assumption.
  - intros p I. unfold vsig_rels in I. apply in_map_iff in I. destruct I as (q & <- & I). cbn [snd].
    match goal with H : forallb _ l = true |- _ => rewrite forallb_forall in H; specialize (H q I); rename H into F end.
    pose proof (frame_rels_in defs (snd q)) as IN. assert (G : forall p, In p (map (fun q : chars * list (chars * attrs) => (fst q, vnode_rels defs (snd q))) (snd q)) ->
      flat id_low (snd p) <> [] /\ fold_left (up chars_eqb leaf) (flat id_low (snd p)) [] = snd p).
    { intros p J. apply in_map_iff in J. destruct J as (x & <- & J). cbn [snd]. apply vnode_rels_build. apply (IN x F J). }
    unfold fit_frame_rels in F. splitb. split.
    + apply flat_nonempty; [apply nonempty_map; assumption|]. intros p J. apply G, J.
    + apply (build chars_eqb cspec (up chars_eqb leaf) (flat id_low)); [|exact G]. rewrite map_map. cbn [fst]. apply (nodup_by_spec _ cspec). assumption.
Qed.
Lemma lefts_app {A B} (a b : list (A + B)) : lefts (a ++ b) = lefts a ++ lefts b. Proof. apply flat_map_app. Qed.
Lemma rights_app {A B} (a b : list (A + B)) : rights (a ++ b) = rights a ++ rights b. Proof. apply flat_map_app. Qed.
Lemma lefts_inl {A B} (l : list A) : lefts (map (@inl A B) l) = l. Proof. induction l as [|x l IH]; [reflexivity|]. cbn [map]. unfold lefts in *. cbn [flat_map app]. rewrite IH. reflexivity. Qed.
Lemma lefts_inr {A B} (l : list B) : lefts (map (@inr A B) l) = []. Proof. induction l as [|x l IH]; [reflexivity|exact IH]. Qed.
Lemma rights_inr {A B} (l : list B) : rights (map (@inr A B) l) = l. Proof. induction l as [|x l IH]; [reflexivity|]. cbn [map]. unfold rights in *. cbn [flat_map app]. rewrite IH. reflexivity. Qed.
Lemma rights_inl {A B} (l : list A) : rights (map (@inl A B) l) = []. Proof. induction l as [|x l IH]; [reflexivity|exact IH]. Qed.
Lemma relations_read db st : fits db -> get_stmts "BA_REL_" st = rel_stmts db ->
  load_relations (vdefs (db_rel_definitions db)) st = Ok (vsig_rels (db_rel_definitions db) (db_sig_rels db), vmsg_rels (db_rel_definitions db) (db_msg_rels db)).
Proof.
  intros H G. set (defs := db_rel_definitions db). unfold load_relations.
  rewrite (collect_yields _ _ _ (map inl (sig_rel_items defs (db_sig_rels db)) ++ map inr (msg_rel_items defs (db_msg_rels db)))).
  - cbn [bind]. rewrite lefts_app, rights_app, lefts_inl, lefts_inr, rights_inl, rights_inr, app_nil_r. cbn [app].
    rewrite sig_rels_build, msg_rels_build by (apply H). reflexivity.
  - rewrite G. pose proof (f_rdefs _ H) as D. pose proof (f_sig_rels _ H) as HS. pose proof (f_msg_rels _ H) as HM. fold defs in D, HS, HM. unfold fit_sig_rels in HS. unfold fit_msg_rels in HM. splitb.
    unfold rel_stmts. apply yields_app.
    + unfold sig_rel_items, flat, vsig_rels. rewrite !flat_map_map. rewrite map_flat_map. apply yields_flat. intros f I.
      match goal with H : forallb (fun p => fit_frame_rels _ _) _ = true |- _ => rewrite forallb_forall in H; specialize (H f I); rename H into F end.
      cbn [fst snd]. rewrite flat_map_map, !map_flat_map. apply yields_flat. intros s J. destruct (frame_rels_in _ _ _ F J) as [N1 F1].
      cbn [fst snd]. unfold vnode_rels. rewrite flat_map_map, !map_flat_map. apply yields_flat. intros n K. destruct (node_rels_in _ _ _ F1 K) as [N2 F2].
      cbn [fst snd]. unfold id_low, vattrs. rewrite !map_map. apply yields_map. intros a L.
      unfold fit_rel in F2. splitb. match goal with H : attrs_ok _ _ _ = true |- _ => pose proof (attrs_in _ _ _ _ H L) as A end.
      cbn [relation_item]. rewrite int_of_decimal. cbn [bind]. assert (E : d_name (a_def (snd a)) = fst a). { unfold attr_ok in A. splitb. symmetry. apply chars_eqb_eq. assumption. }
      rewrite E, (make_attribute_view true _ _ _ D A). reflexivity.
    + unfold msg_rel_items, flat, vmsg_rels. rewrite !flat_map_map. rewrite map_flat_map. apply yields_flat. intros f I.
      match goal with H : forallb (fun p => fit_node_rels _ _) _ = true |- _ => rewrite forallb_forall in H; specialize (H f I); rename H into F end.
      cbn [fst snd]. unfold vnode_rels. rewrite flat_map_map, !map_flat_map. apply yields_flat. intros n K. destruct (node_rels_in _ _ _ F K) as [N2 F2].
      cbn [fst snd]. unfold id_low, vattrs. rewrite !map_map. apply yields_map. intros a L.
      unfold fit_rel in F2. splitb. match goal with H : attrs_ok _ _ _ = true |- _ => pose proof (attrs_in _ _ _ _ H L) as A end.
      cbn [relation_item]. rewrite int_of_decimal. cbn [bind]. assert (E : d_name (a_def (snd a)) = fst a). { unfold attr_ok in A. splitb. symmetry. apply chars_eqb_eq. assumption. }
      rewrite E, (make_attribute_view true _ _ _ D A). reflexivity.
Qed.
Lemma rename_rels_read db ms sr : fits db -> rename_rels (the_attrs db) ms sr = rename_rels (vobjects db) ms sr.
Proof.
  intros H. unfold rename_rels. revert sr. induction ms as [|m ms IH]; intros sr; [reflexivity|]. cbn [fold_left]. rewrite <- IH. f_equal.
  destruct (dget Z.eqb sr (frame m)) as [sm|]; [|reflexivity]. f_equal. f_equal. apply map_ext. intros p. unfold the_attrs. rewrite signal_long_read by exact H. reflexivity.
Qed.

(** ** The database *)
Theorem read_back db : fit db = true -> reads db = true -> load_stmts set_list (file_stmts (the_file db)) = Ok (view set_list db).
Proof.
  intros H0 R. pose proof (fit_fits _ H0) as H. pose proof (file_sections db) as S. set (st := file_stmts (the_file db)). unfold load_stmts.
  assert (E1 : load_comments st = Ok (opts (comment_objects db))). { apply collect_yields. unfold st. rewrite get_comments by exact S. apply comments_yield. }
  rewrite E1. cbn [bind]. fold (cdict db).
  assert (E2 : load_definitions false st = Ok (vdefs (dump_definitions db))).
  { apply load_definitions_view; [exact (f_defs _ H)|apply (get_defaults _ S)|apply (get_definitions _ S)]. }
  rewrite E2. cbn [bind].
  assert (E3 : load_attributes (vdefs (dump_definitions db)) st = Ok (the_attrs db)).
  { unfold load_attributes. rewrite (collect_yields _ _ _ (flat1 (vobjects db))); [reflexivity|]. unfold st. rewrite (get_attributes _ S). apply attribute_items, H. }
  rewrite E3. cbn [bind].
  assert (E4 : load_definitions true st = Ok (vdefs (db_rel_definitions db))).
  { apply load_definitions_view; [exact (f_rdefs _ H)|apply (get_rel_defaults _ S)|apply (get_rel_definitions _ S)]. }
  rewrite E4. cbn [bind]. rewrite (relations_read db st H) by (apply (get_rel_attributes _ S)). cbn [bind fst snd].
  assert (E5 : bus_comment_of st = vbus_comment db). { unfold bus_comment_of, bus_comments, vbus_comment, st. rewrite (get_comments _ S). cbn [the_file df_comments]. rewrite bus_comments_read. reflexivity. }
  rewrite E5. assert (E6 : load_bus (the_attrs db) (vbus_comment db) = Ok (val [] (load_bus (vobjects db) (vbus_comment db)))).
  { rewrite <- ok_val by (unfold reads in R; splitb; assumption). unfold load_bus, the_attrs. rewrite attrs_read by exact H. reflexivity. }
  rewrite E6. cbn [bind]. rewrite (tables_read db st H) by (apply (get_tables _ S)). cbn [bind]. rewrite (choices_read db st H) by (apply (get_choices _ S)). cbn [bind].
  unfold the_attrs at 1. rewrite (senders_read db st H) by (apply (get_senders _ S)). cbn [bind]. rewrite (types_read db st) by (apply (get_types _ S)). cbn [bind].
  rewrite (muxes_read db st) by (apply (get_muxes _ S)). cbn [bind]. unfold the_attrs at 1. rewrite (groups_read db st H) by (apply (get_groups _ S)). cbn [bind].
  fold (the_tables db).
  assert (E7 : collect (load_message set_list (the_tables db)) "BO_" st = Ok (map (vmessage set_list db) (db_messages db))).
  { apply collect_yields. unfold st. rewrite (get_messages _ S). cbn [the_file df_messages]. apply yields_map. intros m I. apply message_read_back; assumption. }
  rewrite E7. cbn [bind].
  assert (E8 : load_envvars (cdict db) (the_attrs db) st = Ok (dupdate chars_eqb [] (map (venvvar db) (db_envvars db)))).
  { unfold load_envvars. rewrite (collect_yields _ _ _ (map (venvvar db) (db_envvars db))); [reflexivity|]. unfold st. rewrite (get_envvars _ S). cbn [the_file df_envvars].
    apply yields_map. intros e I. pose proof (f_envvars _ H _ I) as F. unfold fit_envvar in F. splitb. cbn [envvar_stmt]. unfold the_attrs. rewrite attrs_read, attrs_envvar by assumption.
    rewrite !int_of_decimal, !read_num_text by assumption. cbn [bind]. rewrite comment_envvar by assumption. reflexivity. }
  rewrite E8. cbn [bind]. unfold view. rewrite rename_rels_read by exact H. f_equal.
  assert (E9 : load_version st = Some (match db_version db with Some v => v | None => [] end)). { unfold load_version, st. rewrite (get_version _ S). reflexivity. }
  assert (E10 : load_nodes (cdict db) (the_attrs db) st = map (vnode db) (db_nodes db)).
  { unfold load_nodes, st. rewrite (get_nodes _ S). cbn [fold_left the_file df_nodes]. rewrite map_map. apply map_ext_in. intros n I. unfold vnode, node_long, the_attrs.
    rewrite attrs_read, attrs_node, comment_node by assumption. reflexivity. }
  assert (E11 : attrs_of (the_attrs db) KDb = attrs_of (vobjects db) KDb) by (unfold the_attrs; apply attrs_read, H).
  rewrite E9, E10, E11. reflexivity.
Qed.
Theorem file_read_back db : fit db = true -> reads db = true -> exists f, dump_file db = Ok f /\ load_string set_list (file_text f) = Ok (view set_list db).
Proof.
  intros H R. destruct (written db H) as (f & F & P). exists f. split; [exact F|]. unfold load_string. rewrite P. apply read_back; assumption.
Qed.
End Core.
