(** SymMessages: the symbols of one message, and the messages that are read from them. *)
From Coq Require Import Ascii Permutation.
From Verif Require Import Base CSource CNames DictLemmas Regex DecText DbcToken DbcLex DbcStmt DbcPieces DbcDump DbcLoad DbcTables DbcFit DbcWrite Logreader LogSpec LogProofs Draw DrawProofs.
From Verif Require Kcd KcdProofs.
From Verif Require Import SymToken SymStmt Sym SymRows SymProofs.
Import Kcd(flip, num_is, multiplexed_by, default).
Local Open Scope string_scope.
Local Open Scope Z_scope.
Local Open Scope list_scope.
Notation txt := DbcToken.txt.

Section Messages.
Context {FL : Floats} {LW : FloatLaws FL}.
Context (set_list : list Z -> list Z) (SETS : forall l, NoDup (set_list l) /\ forall x, In x (set_list l) <-> In x l).
Implicit Types (s x : dsignal) (m : dmessage).

(** ** The entries of a symbol *)
Definition type_entries m : list entry := if m_extended m then [EType (txt "Extended")] else [].
Definition cycle_entries m : list entry := match m_cycle_time m with Some v => if aval_true v then [ECycle (aval_text v) false] else [] | None => [] end.
Definition block m (sigs : list dsignal) (mn mx : option Z) (mux : list entry) : symbol :=
  Symbol (m_name m) (id_entries m mn mx ++ type_entries m ++ ELen (decimal (m_length m)) :: cycle_entries m ++ mux ++ map sig_entry sigs).
Definition the_mux (i : Z) x : entry := EMux (s_name x) (decimal (flip (s_start x) (s_big x))) (decimal (s_length x)) (h_text (hex_pad 1 i)) (if s_big x then ["-m"] else []) None.
Lemma dump_plain m sigs mn mx : dump_message m sigs mn mx None = Ok (block m sigs mn mx []).
Proof. reflexivity. Qed.
Lemma dump_muxed m sigs mn mx i x : s_name x <> [] -> dump_message m sigs mn mx (Some (i, x)) = Ok (block m sigs mn mx [the_mux i x]).
Proof. intros N. unfold dump_message, mux_entry. destruct (s_name x) eqn:E; [congruence|]. cbn [bind]. unfold block, the_mux. now rewrite E. Qed.
Definition key_is (k : string) (e : entry) : bool := String.eqb (entry_key e) k.
Lemma no_sigs k sigs : String.eqb "Sig" k = false -> filter (key_is k) (map sig_entry sigs) = [].
Proof. intros K. induction sigs as [|s l IH]; [reflexivity|]. cbn [map filter]. unfold key_is at 1. cbn [sig_entry entry_key]. now rewrite K. Qed.
Definition mux_only (l : list entry) : Prop := l = [] \/ exists i x, l = [the_mux i x].
Lemma entries_id m sigs i mx mux : mux_only mux -> entries "ID" (block m sigs (Some i) mx mux) = id_entries m (Some i) mx.
Proof.
  intros M. unfold entries, block. cbn [sy_entries]. fold (key_is "ID"). rewrite !filter_app. cbn [id_entries app filter key_is entry_key String.eqb Ascii.eqb Bool.eqb]. rewrite !filter_app, no_sigs by reflexivity.
  destruct M as [->|(j & x & ->)]; unfold type_entries, cycle_entries; destruct (m_extended m); destruct (m_cycle_time m) as [v|]; try destruct (aval_true v); reflexivity.
Qed.
Lemma entries_no_id m sigs mux : mux_only mux -> entries "ID" (block m sigs None None mux) = [].
Proof.
  intros M. unfold entries, block. cbn [sy_entries]. fold (key_is "ID"). rewrite !filter_app. cbn [id_entries app filter key_is entry_key String.eqb Ascii.eqb Bool.eqb]. rewrite !filter_app, no_sigs by reflexivity.
  destruct M as [->|(j & x & ->)]; unfold type_entries, cycle_entries; destruct (m_extended m); destruct (m_cycle_time m) as [v|]; try destruct (aval_true v); reflexivity.
Qed.
Definition id_given (mn mx : option Z) : Prop := mn = None -> mx = None.
Lemma entries_type m sigs mn mx mux : id_given mn mx -> mux_only mux -> entries "Type" (block m sigs mn mx mux) = type_entries m.
Proof.
  intros G M. unfold entries, block. cbn [sy_entries]. fold (key_is "Type"). rewrite !filter_app. cbn [app filter key_is entry_key String.eqb Ascii.eqb Bool.eqb]. rewrite !filter_app, no_sigs by reflexivity.
  destruct mn as [i|]; [|rewrite (G eq_refl)]; destruct M as [->|(j & x & ->)]; unfold type_entries, cycle_entries; destruct (m_extended m); destruct (m_cycle_time m) as [v|]; try destruct (aval_true v); reflexivity.
Qed.
Lemma entries_len m sigs mn mx mux : id_given mn mx -> mux_only mux -> entries "Len" (block m sigs mn mx mux) = [ELen (decimal (m_length m))].
Proof.
  intros G M. unfold entries, block. cbn [sy_entries]. fold (key_is "Len"). rewrite !filter_app. cbn [app filter key_is entry_key String.eqb Ascii.eqb Bool.eqb]. rewrite !filter_app, no_sigs by reflexivity.
  destruct mn as [i|]; [|rewrite (G eq_refl)]; destruct M as [->|(j & x & ->)]; unfold type_entries, cycle_entries; destruct (m_extended m); destruct (m_cycle_time m) as [v|]; try destruct (aval_true v); reflexivity.
Qed.
Lemma entries_cycle m sigs mn mx mux : id_given mn mx -> mux_only mux -> entries "CycleTime" (block m sigs mn mx mux) = cycle_entries m.
Proof.
  intros G M. unfold entries, block. cbn [sy_entries]. fold (key_is "CycleTime"). rewrite !filter_app. cbn [app filter key_is entry_key String.eqb Ascii.eqb Bool.eqb]. rewrite !filter_app, no_sigs by reflexivity.
  destruct mn as [i|]; [|rewrite (G eq_refl)]; destruct M as [->|(j & x & ->)]; unfold type_entries, cycle_entries; destruct (m_extended m); destruct (m_cycle_time m) as [v|]; try destruct (aval_true v); reflexivity.
Qed.
Lemma entries_mux m sigs mn mx mux : id_given mn mx -> mux_only mux -> entries "Mux" (block m sigs mn mx mux) = mux.
Proof.
  intros G M. unfold entries, block. cbn [sy_entries]. fold (key_is "Mux"). rewrite !filter_app. cbn [app filter key_is entry_key String.eqb Ascii.eqb Bool.eqb]. rewrite !filter_app, no_sigs by reflexivity.
  destruct mn as [i|]; [|rewrite (G eq_refl)]; destruct M as [->|(j & x & ->)]; unfold type_entries, cycle_entries; destruct (m_extended m); destruct (m_cycle_time m) as [v|]; try destruct (aval_true v); reflexivity.
Qed.

(** ** The symbols can be written *)
Ltac sbb H := repeat match type of H with andb _ _ = true => apply andb_true_iff in H; let H' := fresh H in destruct H as [H H'] end.
Definition id_bound m : Z := if m_extended m then 2 ^ 29 else 2 ^ 11.
Lemma block_ok m sigs mn mx mux : sym_message m = true -> incl sigs (m_signals m) ->
  (forall i, mn = Some i \/ mx = Some i -> 0 <= i < id_bound m) -> id_given mn mx ->
  (forall e, In e mux -> entry_ok e = true) -> symbol_ok (block m sigs mn mx mux) = true.
Proof.
  intros H S B G M. unfold sym_message in H. sbb H. unfold symbol_ok, block. cbn [sy_name sy_entries]. rewrite H. cbn [andb]. rewrite forallb_app. apply andb_true_iff. split.
  - destruct mn as [i|]; [|rewrite (G eq_refl); reflexivity]. unfold id_entries. cbn [forallb entry_ok]. rewrite andb_true_r.
    assert (BI := B i (or_introl eq_refl)). unfold id_bound in BI.
    assert (IOK : hex_ok (id_token m i) = true). { apply hex_ok_text; [now apply id_first|]. apply pad_upper. lia. }
    rewrite IOK. cbn [andb]. apply andb_true_iff. split.
    + destruct mx as [j|]; [|reflexivity]. cbn [option_map]. assert (BJ := B j (or_intror eq_refl)). apply hex_ok_minus; [now apply id_first|]. apply pad_upper. lia.
    + unfold comment_fit in H2. destruct (m_comment m) as [c|]; [|reflexivity]. sbb H2. now apply row_comment_ok.
  - rewrite forallb_app. unfold type_entries. apply andb_true_iff. split; [now destruct (m_extended m)|]. cbn [forallb entry_ok]. rewrite decimal_number. cbn [andb]. rewrite !forallb_app. apply andb_true_iff. split.
    + unfold cycle_entries. destruct (m_cycle_time m) as [[z|f|t]|]; [| |discriminate|reflexivity].
      * destruct (aval_true _); [|reflexivity]. cbn [forallb entry_ok aval_text]. now rewrite decimal_number.
      * destruct (aval_true _); [|reflexivity]. cbn [forallb entry_ok aval_text]. unfold sym_num in H1. cbn [num_text] in H1. sbb H1. now rewrite H5.
    + apply andb_true_iff. split; [apply forallb_forall; exact M|]. apply forallb_forall. intros e I. apply in_map_iff in I. destruct I as (s & <- & I).
      rewrite forallb_forall in H0. specialize (H0 s (S s I)). cbn [sig_entry entry_ok]. rewrite name_short, decimal_number by exact H0. unfold sym_signal in H0. sbb H0. now rewrite H0.
Qed.
Lemma the_mux_ok i x : plain_text (s_name x) = true -> decimal_lead i -> entry_ok (the_mux i x) = true.
Proof.
  intros P D. pose proof (lead_nonneg i D). unfold the_mux. cbn [entry_ok]. rewrite P, !decimal_number. rewrite hex_ok_text; [|now apply lead_first|now apply pad_upper]. destruct (s_big x); reflexivity.
Qed.

(** ** Reading the symbols *)
Section Read.
Context (srt : list dsignal -> list dsignal) (k : string) (signals : sig_dict) (enums : enum_dict).
Definition has_row s : Prop := sym_signal s = true /\ cget signals (signal_name s) = Some (base s).
Lemma inner_read m sigs mn mx mux par : mux_only mux -> (forall s, In s sigs -> has_row s) ->
  load_inner signals enums par (block m sigs mn mx mux) = Ok (map (fun s => place (base s) (s_start s) par) sigs).
Proof.
  intros M R. unfold load_inner.
  set (g := fun e => match load_sig signals par e with Ok l => l | Err _ => [] end).
  set (front := id_entries m mn mx ++ type_entries m ++ ELen (decimal (m_length m)) :: cycle_entries m ++ mux).
  assert (EB : sy_entries (block m sigs mn mx mux) = front ++ map sig_entry sigs).
  { unfold block, front. cbn [sy_entries]. rewrite <- !app_assoc. cbn [app]. now rewrite <- app_assoc. }
  assert (FR : forall e, In e front -> match e with ESig _ _ | EVar _ _ _ _ _ _ _ => False | _ => True end).
  { intros e I. unfold front in I. rewrite !in_app_iff in I. cbn [In] in I. rewrite in_app_iff in I. destruct I as [I|[I|[I|[I|I]]]].
    - unfold id_entries in I. destruct mn; [|destruct mx]; cbn in I; intuition (subst; exact I).
    - unfold type_entries in I. destruct (m_extended m); cbn in I; intuition (subst; exact I).
    - subst. exact Logic.I.
    - unfold cycle_entries in I. destruct (m_cycle_time m) as [v|]; [destruct (aval_true v)|]; cbn in I; intuition (subst; exact I).
    - destruct M as [->|(i & x & ->)]; cbn in I; intuition (subst; exact I). }
  assert (SG : forall s, In s sigs -> load_sig signals par (sig_entry s) = Ok [place (base s) (s_start s) par]).
  { intros s I. destruct (R s I) as [F C]. unfold sig_entry, load_sig. rewrite C, int_of_decimal. cbn [bind]. cbn [base s_big]. now rewrite KcdProofs.flip_flip. }
  assert (M1 : mapM (load_sig signals par) (sy_entries (block m sigs mn mx mux)) = Ok (map g (sy_entries (block m sigs mn mx mux)))).
  { apply mapM_all. intros e I. rewrite EB in I. apply in_app_iff in I. unfold g. destruct I as [I|I].
    - specialize (FR e I). destruct e; try contradiction; reflexivity.
    - apply in_map_iff in I. destruct I as (s & <- & I). now rewrite (SG s I). }
  assert (M2 : mapM (load_var enums par) (sy_entries (block m sigs mn mx mux)) = Ok (map (fun _ => []) (sy_entries (block m sigs mn mx mux)))).
  { apply mapM_all. intros e I. rewrite EB in I. apply in_app_iff in I. destruct I as [I|I].
    - specialize (FR e I). destruct e; try contradiction; reflexivity.
    - apply in_map_iff in I. destruct I as (s & <- & I). reflexivity. }
  rewrite M1. cbn [bind]. rewrite M2. cbn [bind]. rewrite EB. rewrite !map_app, !concat_app.
  assert (C1 : List.concat (map g front) = []).
  { clear - FR. induction front as [|e l IH]; [reflexivity|]. cbn [map List.concat]. rewrite IH by (intros x I; apply FR; now right). specialize (FR e (or_introl eq_refl)). unfold g. destruct e; try contradiction; reflexivity. }
  assert (C2 : List.concat (map g (map sig_entry sigs)) = map (fun s => place (base s) (s_start s) par) sigs).
  { clear - SG. induction sigs as [|s l IH]; [reflexivity|]. cbn [map List.concat]. rewrite IH by (intros x I; apply SG; now right). unfold g. rewrite SG by now left. reflexivity. }
  assert (C3 : forall l : list entry, List.concat (map (fun _ => @nil dsignal) l) = []) by (intros l; induction l as [|e l IH]; [reflexivity|exact IH]).
  rewrite C1, C2, !C3. cbn [app]. now rewrite app_nil_r.
Qed.
Definition loaded m (sigs : list dsignal) (id : Z) : dmessage :=
  DMessage id (m_extended m) (m_name m) (m_length m) (section_senders k) None (view_aval (m_cycle_time m)) (m_comment m) (srt sigs) false false None [].
Lemma cycle_read m : sym_message m = true ->
  match cycle_entries m with ECycle n _ :: _ => let* v := read_num n in Ok (Some (num_aval v)) | _ => Ok None end = Ok (view_aval (m_cycle_time m)).
Proof.
  intros H. unfold sym_message in H. sbb H. unfold cycle_entries, view_aval. destruct (m_cycle_time m) as [[z|f|t]|]; [| |discriminate|reflexivity].
  - destruct (aval_true _); [|reflexivity]. cbn [aval_text]. change (decimal z) with (num_text (DInt z)). rewrite read_num_text by reflexivity. reflexivity.
  - destruct (aval_true _); [|reflexivity]. cbn [aval_text]. unfold sym_num in H1. sbb H1. change (f_text f) with (num_text (DFloat f)). rewrite read_num_text by assumption. reflexivity.
Qed.
Lemma comment_back m : sym_message m = true -> option_map load_comment (option_map row_comment (m_comment m)) = m_comment m.
Proof. intros H. unfold sym_message in H. sbb H. destruct (m_comment m) as [c|]; [|reflexivity]. cbn [option_map]. now rewrite load_row_comment. Qed.
Lemma extended_read m i sigs mx mux : sym_message m = true -> 0 <= i < id_bound m -> mux_only mux ->
  is_extended (id_token m i) (block m sigs (Some i) mx mux) = m_extended m.
Proof.
  intros H B M. unfold is_extended. rewrite entries_type by (try exact M; discriminate). unfold type_entries.
  assert (L : zlen (id_token m i) = if m_extended m then 9 else 4).
  { unfold id_token, h_text, zlen. rewrite app_length. unfold hex_pad, id_bound in *. destruct (Z.ltb_spec i 0); [destruct (m_extended m); lia|]. rewrite hex_fixed_length.
    destruct (m_extended m); rewrite Nat.max_l; try reflexivity; apply hex_digits_le; try lia; (split; [lia|]); (apply Z.lt_trans with (1 := proj2 B)); reflexivity. }
  rewrite L. destruct (m_extended m); reflexivity.
Qed.
(** A symbol that is read as messages with the signals [sigs]: one message, or one for each id of a range *)
Lemma symbol_messages m body mx mux symbols sigs : sym_message m = true -> mux_only mux -> (forall j, mx = Some j -> 0 <= j) ->
  load_message_signals symbols signals enums (block m body (Some (m_id m)) mx mux) = Ok sigs ->
  load_symbol srt k symbols signals enums (block m body (Some (m_id m)) mx mux) = Ok (map (loaded m sigs) (zrange (m_id m) (match mx with Some j => j | None => m_id m end + 1))).
Proof.
  intros H M BX LS. unfold load_symbol. rewrite entries_id by exact M. unfold id_entries.
  assert (B : 0 <= m_id m < id_bound m). { unfold sym_message in H. sbb H. unfold id_bound. apply Z.leb_le in H4. apply Z.ltb_lt in H3. lia. }
  unfold id_token at 1, h_text at 1. rewrite removelast_h, hex_of_pad by lia. cbn [bind].
  assert (HI : match option_map (fun j => "-"%char :: id_token m j) mx with Some t => hex_of (removelast (tl t)) | None => Ok (m_id m) end = Ok (match mx with Some j => j | None => m_id m end)).
  { destruct mx as [j|]; [|reflexivity]. cbn [option_map tl]. unfold id_token, h_text. rewrite removelast_h, hex_of_pad; [reflexivity|now apply BX]. }
  match goal with |- bind ?a _ = _ => replace a with (@Ok Z (match mx with Some j => j | None => m_id m end)) by (symmetry; exact HI) end. cbn [bind]. apply mapM_all. intros i _. unfold load_message. rewrite entries_len, entries_cycle by (try exact M; discriminate). rewrite int_of_decimal. cbn [bind].
  rewrite (cycle_read m H). cbn [bind]. rewrite LS. cbn [bind]. rewrite (comment_back m H), (extended_read m (m_id m)) by assumption. reflexivity.
Qed.

(** ** Messages without multiplexing *)
Lemma plain_symbols m mx : plain_message m -> message_symbols set_list m mx = Ok [block m (m_signals m) (Some (m_id m)) mx []].
Proof.
  intros P. unfold message_symbols.
  assert (N : existsb (selects set_list (m_signals m)) (filter is_root (m_signals m)) = false).
  { destruct (existsb _ _) eqn:E; [|reflexivity]. apply existsb_exists in E. destruct E as (s & I & E). apply filter_In in I. destruct I as [I _]. destruct (P s I) as (F & _). unfold selects in E. rewrite F in E. discriminate. }
  rewrite N. reflexivity.
Qed.
Lemma plain_load m mx symbols : sym_message m = true -> plain_message m -> (forall s, In s (m_signals m) -> has_row s) -> (forall j, mx = Some j -> 0 <= j) ->
  load_symbol srt k symbols signals enums (block m (m_signals m) (Some (m_id m)) mx []) =
  Ok (map (loaded m (map view_signal (m_signals m))) (zrange (m_id m) (match mx with Some j => j | None => m_id m end + 1))).
Proof.
  intros H P R BX. apply symbol_messages; [exact H|now left|exact BX|]. unfold load_message_signals. rewrite entries_mux by (try (now left); discriminate). rewrite inner_read by (try (now left); exact R).
  f_equal. apply map_ext_in. intros s I. apply place_base; destruct (P s I) as (_ & A & B); symmetry; assumption.
Qed.

(** ** Messages with a multiplexer *)
Lemma filter_one {A} (p : A -> bool) (l : list A) (x : A) : NoDup l -> In x l -> p x = true -> (forall y, In y l -> p y = true -> y = x) -> filter p l = [x].
Proof.
  induction l as [|y l IH]; intros N I P U; [contradiction|]. inversion N as [|? ? NI N']; subst. cbn [filter]. destruct I as [->|I].
  - rewrite P. f_equal. destruct (filter p l) as [|z r] eqn:E; [reflexivity|]. exfalso. assert (Z : In z (filter p l)) by (rewrite E; now left). apply filter_In in Z. destruct Z as [Z1 Z2].
    rewrite (U z (or_intror Z1) Z2) in Z1. contradiction.
  - destruct (p y) eqn:E; [exfalso; apply NI; rewrite (U y (or_introl eq_refl) E); exact I|]. apply IH; auto. intros z Z. apply U. now right.
Qed.
Definition mux_ids m x : list Z := child_ids set_list (m_signals m) x.
Definition mux_block m x (mn : option Z) (i : Z) : symbol := block m (selected (m_signals m) (s_name x) i) mn None [the_mux i x].
Lemma by_name_eq n s : multiplexed_by n s = true <-> s_mux_signal s = Some n.
Proof.
  unfold multiplexed_by. destruct (s_mux_signal s) as [t|]; [|split; discriminate]. split; intros E; [f_equal; apply chars_eqb_eq in E; congruence|]. injection E as ->. apply chars_eqb_refl.
Qed.
Lemma mux_children m x s : mux_message m x -> In s (m_signals m) -> multiplexed_by (s_name x) s = true -> s <> x /\ selected_by x s.
Proof.
  intros (IX & ND & MX & MI & MS & NN & SEL & _) I B. apply by_name_eq in B. destruct (SEL s I) as [->|S]; [congruence|]. split; [|exact S]. intros ->. congruence.
Qed.
Lemma ids_lead m x i : mux_message m x -> In i (mux_ids m x) -> decimal_lead i.
Proof.
  intros M I. unfold mux_ids, child_ids in I. rewrite (proj2 (SETS _)) in I. apply in_app_iff in I. destruct I as [I|I].
  - apply in_flat_map in I. destruct I as (s & IS & I). apply filter_In in IS. destruct IS as [IS B]. destruct (mux_children m x s M IS B) as [_ (_ & _ & j & E & D)]. unfold ids_of in I. rewrite E in I. destruct I as [<-|[]]. exact D.
  - destruct M as (_ & _ & _ & _ & _ & _ & _ & C & _). now apply C.
Qed.
Lemma ids_some m x : mux_message m x -> mux_ids m x <> [].
Proof.
  intros M E. assert (EX : exists i, In i (mux_ids m x)).
  { destruct M as (IX & ND & MX & MI & MS & NN & SEL & C & [(s & I & N)|CH]).
    - destruct (SEL s I) as [->|(_ & P & i & Q & _)]; [congruence|]. exists i. unfold mux_ids, child_ids. rewrite (proj2 (SETS _)). apply in_app_iff. left. apply in_flat_map. exists s. split.
      + apply filter_In. split; [exact I|]. now apply by_name_eq.
      + unfold ids_of. rewrite Q. now left.
    - destruct (choices_of x) as [|[i t] l] eqn:EC; [congruence|]. exists i. unfold mux_ids, child_ids. rewrite (proj2 (SETS _)). rewrite EC. apply in_app_iff. right. now left. }
  rewrite E in EX. destruct EX as (i & []).
Qed.
Lemma kids_plain m x i : mux_message m x -> existsb (selects set_list (m_signals m)) (selected (m_signals m) (s_name x) i) = false.
Proof.
  intros M. destruct (existsb _ _) eqn:E; [|reflexivity]. apply existsb_exists in E. destruct E as (s & I & E). unfold selected in I. apply filter_In in I. destruct I as [I B]. apply andb_true_iff in B. destruct B as [B _].
  destruct (mux_children m x s M I B) as [_ (F & _)]. unfold selects in E. rewrite F in E. discriminate.
Qed.
Lemma mux_symbols_eq m x ids : mux_message m x -> forall mn, mux_symbols set_list m mn None x [] ids =
  Ok (match ids with [] => [] | i :: r => mux_block m x mn i :: map (mux_block m x None) r end).
Proof.
  intros M. assert (NN : s_name x <> []) by now destruct M as (_ & _ & _ & _ & _ & NN & _).
  induction ids as [|i r IH]; intros mn; [reflexivity|]. cbn [mux_symbols]. rewrite kids_plain by exact M. rewrite dump_muxed by exact NN. cbn [bind]. rewrite IH. cbn [bind]. unfold mux_block at 1. rewrite app_nil_r.
  destruct r; reflexivity.
Qed.
Lemma muxed_symbols m x : mux_message m x -> message_symbols set_list m None =
  Ok (match mux_ids m x with [] => [] | i :: r => mux_block m x (Some (m_id m)) i :: map (mux_block m x None) r end).
Proof.
  intros M. pose proof (ids_some m x M) as NE. pose proof M as (IX & ND & MX & MI & MS & NN & SEL & _).
  assert (RT : filter is_root (m_signals m) = [x]).
  { apply filter_one; auto; [unfold is_root; now rewrite MS|]. intros y I Y. destruct (SEL y I) as [->|(_ & P & _)]; [reflexivity|]. unfold is_root in Y. rewrite P in Y. discriminate. }
  assert (SX : selects set_list (m_signals m) x = true). { unfold selects. rewrite MX. cbn [andb]. fold (mux_ids m x). now destruct (mux_ids m x). }
  unfold message_symbols. rewrite RT. cbn [existsb filter]. rewrite SX. cbn [orb negb mapM bind]. fold (mux_ids m x). rewrite mux_symbols_eq by exact M. cbn [bind List.concat]. now rewrite app_nil_r.
Qed.
Lemma mux_block_ok m x mn i : sym_message m = true -> mux_message m x -> In i (mux_ids m x) -> mn = None \/ mn = Some (m_id m) -> symbol_ok (mux_block m x mn i) = true.
Proof.
  intros H M I N. apply block_ok; [exact H| | |discriminate || (intros _; reflexivity)|].
  - intros s S. unfold selected in S. apply filter_In in S. apply S.
  - intros j [E|E]; [|discriminate]. destruct N as [->| ->]; [discriminate|]. injection E as <-. unfold sym_message in H. sbb H. unfold id_bound. apply Z.leb_le in H4. apply Z.ltb_lt in H3. lia.
  - intros e [<-|[]]. apply the_mux_ok; [|exact (ids_lead m x i M I)]. destruct M as (IX & _). unfold sym_message in H. sbb H. rewrite forallb_forall in H0. specialize (H0 x IX). unfold sym_signal in H0. sbb H0. exact H0.
Qed.
Definition mux_order m x : list dsignal := flat_map (selected (m_signals m) (s_name x)) (mux_ids m x).
Lemma selected_view m x i s : mux_message m x -> In s (selected (m_signals m) (s_name x) i) -> place (base s) (s_start s) (Some (s_name x, i)) = view_signal s.
Proof.
  intros M I. unfold selected in I. apply filter_In in I. destruct I as [I B]. apply andb_true_iff in B. destruct B as [B HI]. destruct (mux_children m x s M I B) as [_ (_ & P & j & Q & _)].
  apply place_base; cbn [option_map fst snd]; [|now rewrite P]. unfold has_id, ids_of in HI. rewrite Q in HI |- *. cbn [default existsb] in HI. rewrite orb_false_r in HI. apply Z.eqb_eq in HI. now subst.
Qed.
Lemma existsb_flag (b : bool) : existsb (String.eqb "-m") (if b then ["-m"] else []) = b. Proof. now destruct b. Qed.
Lemma symbol_eqb_refl (s : symbol) : symbol_eqb s s = true.
Proof. unfold symbol_eqb. rewrite chars_eqb_refl. apply forallb_forall. intros key _. destruct (list_eq_dec entry_dec (entries key s) (entries key s)); congruence. Qed.
Lemma mux_load m x pre post : sym_message m = true -> mux_message m x -> (forall s, In s (m_signals m) -> has_row s) ->
  (forall y, In y (pre ++ post) -> sy_name y <> m_name m) ->
  forall i r, mux_ids m x = i :: r ->
  load_symbol srt k (pre ++ (mux_block m x (Some (m_id m)) i :: map (mux_block m x None) r) ++ post) signals enums (mux_block m x (Some (m_id m)) i) =
  Ok [loaded m (view_mux x :: map view_signal (mux_order m x)) (m_id m)].
Proof.
  intros H M R NM i r EI. set (b0 := mux_block m x (Some (m_id m)) i). set (all := pre ++ (b0 :: map (mux_block m x None) r) ++ post).
  assert (MO : forall j, mux_only [the_mux j x]) by (intros j; right; eauto).
  assert (INI : forall j, In j (i :: r) -> decimal_lead j) by (intros j J; apply (ids_lead m x j M); rewrite EI; exact J).
  assert (RS : forall j s, In s (selected (m_signals m) (s_name x) j) -> has_row s) by (intros j s S; apply R; unfold selected in S; apply filter_In in S; apply S).
  unfold b0, mux_block. rewrite (symbol_messages m _ None [the_mux i x] all (view_mux x :: map view_signal (mux_order m x))); [|exact H|apply MO|discriminate|].
  { replace (zrange (m_id m) (m_id m + 1)) with [m_id m]; [reflexivity|]. unfold zrange. replace (m_id m + 1 - m_id m) with 1 by lia. reflexivity. }
  fold (mux_block m x (Some (m_id m)) i). fold b0. unfold load_message_signals.
  assert (EM : forall mn j, entries "Mux" (mux_block m x mn j) = [the_mux j x]) by (intros mn j; apply entries_mux; [intros _; reflexivity|apply MO]).
  unfold b0 at 1. rewrite EM. unfold load_muxed, first_mux. unfold b0 at 1. rewrite EM. unfold the_mux at 1. cbn [bind].
  rewrite !int_of_decimal. cbn [bind]. rewrite mux_id_read by (apply lead_nonneg, INI; now left). cbn [bind]. unfold b0 at 1, mux_block. rewrite inner_read by (try apply MO; apply RS). cbn [bind]. fold (mux_block m x (Some (m_id m)) i). fold b0.
  set (g := fun y => match load_others signals enums (s_name x) b0 y with Ok l => l | Err _ => [] end).
  assert (O1 : forall y, In y (pre ++ post) -> load_others signals enums (s_name x) b0 y = Ok []).
  { intros y I. unfold load_others. change (sy_name b0) with (m_name m). pose proof (NM y I) as N. destruct (chars_eqb (sy_name y) (m_name m)) eqn:E; [apply chars_eqb_eq in E; congruence|reflexivity]. }
  assert (O2 : load_others signals enums (s_name x) b0 b0 = Ok []). { unfold load_others. rewrite symbol_eqb_refl. cbn [negb]. now rewrite andb_false_r. }
  assert (O3 : forall j, In j r -> load_others signals enums (s_name x) b0 (mux_block m x None j) = Ok (map view_signal (selected (m_signals m) (s_name x) j))).
  { intros j J. unfold load_others. change (sy_name b0) with (m_name m). change (sy_name (mux_block m x None j)) with (m_name m). rewrite chars_eqb_refl.
    assert (NE : symbol_eqb (mux_block m x None j) b0 = false).
    { unfold symbol_eqb. cbn [entry_keys forallb]. unfold b0, mux_block. rewrite entries_no_id, entries_id by apply MO. cbn [id_entries].
      match goal with |- context [list_eq_dec entry_dec ?a ?b] => destruct (list_eq_dec entry_dec a b) as [E|E] end; [discriminate E|]. cbn [andb]. apply andb_false_r. }
    rewrite NE. cbn [negb andb]. unfold first_mux. rewrite EM. unfold the_mux. cbn [bind]. rewrite mux_id_read by (apply lead_nonneg, INI; now right). cbn [bind].
    unfold mux_block. rewrite inner_read by (try apply MO; apply RS). f_equal. apply map_ext_in. intros s S. now apply (selected_view m x j). }
  assert (MM : mapM (load_others signals enums (s_name x) b0) all = Ok (map g all)).
  { apply mapM_all. intros y I. unfold g. unfold all in I. rewrite in_app_iff, in_app_iff in I. cbn [In] in I. destruct I as [I|[[<-|I]|I]].
    - now rewrite O1 by (apply in_app_iff; now left).
    - now rewrite O2.
    - apply in_map_iff in I. destruct I as (j & <- & J). now rewrite O3.
    - now rewrite O1 by (apply in_app_iff; now right). }
  rewrite MM. cbn [bind]. f_equal. f_equal.
  { unfold view_mux, the_mux. cbn [option_map]. rewrite existsb_flag, KcdProofs.flip_flip. reflexivity. }
  rewrite (map_ext_in _ view_signal) by (intros s S; now apply (selected_view m x i)).
  unfold mux_order. rewrite EI. cbn [flat_map]. rewrite map_app. f_equal. unfold all. rewrite !map_app, !concat_app. cbn [map List.concat].
  assert (Z : forall l, (forall y, In y l -> In y (pre ++ post)) -> List.concat (map g l) = []).
  { clear - O1. induction l as [|y l IH]; intros L; [reflexivity|]. cbn [map List.concat]. rewrite IH by (intros z Z; apply L; now right). unfold g. rewrite O1 by (apply L; now left). reflexivity. }
  rewrite (Z pre) by (intros y Y; apply in_app_iff; auto). unfold g at 1. rewrite O2. cbn [app]. rewrite (Z post) by (intros y Y; apply in_app_iff; auto). rewrite app_nil_r.
  clear - O3. induction r as [|j r IH]; [reflexivity|]. cbn [map List.concat flat_map]. rewrite map_app, <- IH by (intros y Y; apply O3; now right). f_equal. unfold g. rewrite O3 by now left. reflexivity.
Qed.
End Read.
End Messages.
