(** Prop_Sym: C61, the round trip of a CAN database through a SYM file (formats/sym.py dump_string, load_string). *)
From Coq Require Import Ascii Permutation Sorting.Sorted.
From Verif Require Import Base CSource CNames DictLemmas Regex DecText DbcToken DbcLex DbcStmt DbcPieces DbcDump DbcLoad DbcTables DbcFit DbcWrite Logreader LogSpec LogProofs Draw DrawProofs.
From Verif Require Kcd KcdProofs Prop_Dbc Prop_Kcd.
From Verif Require Import SymToken SymStmt Sym SymRows SymProofs SymMessages SymFile.
Import Kcd(num_is).
Import Prop_Dbc(lists_set).
Import Prop_Kcd(orders, start_order, sort_orders, sort_ordered).
Local Open Scope string_scope.
Local Open Scope Z_scope.
Local Open Scope list_scope.

Section Kept.
Context {FL : Floats} {LW : FloatLaws FL}.
Implicit Types (s : dsignal) (m : dmessage) (db : database).

(** ** What it means that a signal and a message are kept *)
(** An empty text is lost. *)
Definition text_kept (a b : option chars) : Prop := (a = Some [] -> b = None) /\ (a <> Some [] -> b = a).
(** A zero is lost. *)
Definition value_kept (a b : option aval) : Prop := (a = Some (AInt 0) -> b = None) /\ (forall z, a = Some (AInt z) -> z <> 0 -> b = a) /\ (a = None -> b = None).
(** A number that equals the default is read as the default. *)
Definition number_kept (d : Z) (a b : num) : Prop := if num_is a d then b = DInt d else b = a.
Definition signal_kept s s' : Prop :=
  s_name s' = s_name s /\ s_start s' = s_start s /\ s_length s' = s_length s /\ s_big s' = s_big s /\ s_float s' = s_float s /\
  (s_float s = false -> s_signed s' = s_signed s) /\ number_kept 1 (s_scale s) (s_scale s') /\ number_kept 0 (s_offset s) (s_offset s') /\
  (s_choices s <> Some [] -> s_choices s' = s_choices s) /\ s_min s' = s_min s /\ s_max s' = s_max s /\ text_kept (s_unit s) (s_unit s') /\
  text_kept (s_comment s) (s_comment s') /\ value_kept (s_spn s) (s_spn s') /\ s_is_mux s' = s_is_mux s /\ s_mux_ids s' = s_mux_ids s /\
  s_mux_signal s' = s_mux_signal s.
(** Of a multiplexer only the place is kept; it is read as an unsigned number without scaling, names and limits. *)
Definition multiplexer_kept s s' : Prop :=
  s_name s' = s_name s /\ s_start s' = s_start s /\ s_length s' = s_length s /\ s_big s' = s_big s /\ s_is_mux s' = true /\ s_mux_ids s' = s_mux_ids s /\ s_mux_signal s' = s_mux_signal s /\
  s_signed s' = false /\ s_float s' = false /\ s_scale s' = DInt 1 /\ s_offset s' = DInt 0 /\ s_choices s' = None /\ s_min s' = None /\ s_max s' = None.
Definition kept s s' : Prop := if s_is_mux s then multiplexer_kept s s' else signal_kept s s'.
(** A sender is kept if it is one of the two sides of a SYM file. *)
Definition senders_kept (a b : list chars) : Prop :=
  (a = [txt "ECU"] \/ a = [txt "Peripherals"] -> b = a) /\ (a <> [txt "ECU"] -> a <> [txt "Peripherals"] -> b = [txt "ECU"; txt "Peripherals"]).
Definition message_kept m m' : Prop :=
  m_id m' = m_id m /\ m_extended m' = m_extended m /\ m_name m' = m_name m /\ m_length m' = m_length m /\ senders_kept (m_senders m) (m_senders m') /\
  value_kept (m_cycle_time m) (m_cycle_time m') /\ m_comment m' = m_comment m /\
  exists l, Permutation l (m_signals m) /\ Forall2 kept l (m_signals m').

Lemma mapM_in {A B} (f : A -> result B) l : forall r, mapM f l = Ok r -> forall x, In x l -> exists y, f x = Ok y.
Proof.
  induction l as [|a l IH]; intros r H x I; [contradiction|]. cbn [mapM] in H. apply bind_ok in H. destruct H as (y & E & H). apply bind_ok in H. destruct H as (ys & E' & _). destruct I as [<-|I]; [eauto|now apply (IH ys)].
Qed.
Lemma Forall2_flip {A B} (R : A -> B -> Prop) a b : Forall2 R a b -> Forall2 (fun y x => R x y) b a.
Proof. induction 1; constructor; auto. Qed.
Lemma text_view t : text_kept t (view_text t).
Proof. destruct t as [[|]|]; split; intros H; try reflexivity; [now contradiction H|discriminate H]. Qed.
Lemma value_view v : value_kept v (view_aval v).
Proof.
  destruct v as [v|]; (split; [|split]); cbn [view_aval]; try congruence.
  - intros E. injection E as ->. reflexivity.
  - intros z E N. injection E as ->. cbn [aval_true]. destruct (Z.eqb_spec z 0); [contradiction|reflexivity].
Qed.
Lemma number_view n z : number_kept z n (view_num n z).
Proof. unfold number_kept, view_num. destruct (num_is n z); reflexivity. Qed.
Lemma senders_view l : senders_kept l (view_senders l).
Proof.
  split.
  - intros [-> | ->]; reflexivity.
  - intros N1 N2. unfold view_senders. destruct l as [|n [|]]; try reflexivity. destruct (chars_eqb n (txt "ECU")) eqn:A; [apply chars_eqb_eq in A; congruence|].
    destruct (chars_eqb n (txt "Peripherals")) eqn:B; [apply chars_eqb_eq in B; congruence|reflexivity].
Qed.
Lemma signal_view s : s_is_mux s = false -> kept s (view_signal s).
Proof.
  intros M. unfold kept. rewrite M. unfold signal_kept. cbn. repeat (split; [reflexivity|]). split; [intros ->; apply andb_true_r|]. split; [apply number_view|]. split; [apply number_view|].
  split; [destruct (s_choices s) as [[|]|]; intros H; try reflexivity; now contradiction H|]. repeat (split; [reflexivity|]). split; [apply text_view|]. split; [apply text_view|]. split; [apply value_view|]. rewrite M. auto.
Qed.
Section Sets.
Context (set_list : list Z -> list Z) (SETS : lists_set set_list).
Lemma NoDup_app_ {A} (a b : list A) : NoDup a -> NoDup b -> (forall x, In x a -> In x b -> False) -> NoDup (a ++ b).
Proof.
  induction 1 as [|x a NI N IH]; intros B D; [exact B|]. cbn [app]. constructor; [|apply IH; [exact B|intros y Y; apply D; now right]].
  intros I. apply in_app_iff in I. destruct I as [I|I]; [contradiction|]. apply (D x); [now left|exact I].
Qed.
Lemma nodup_pieces (l : list dsignal) (f : Z -> dsignal -> bool) ids : NoDup l -> NoDup ids -> (forall s i j, In s l -> f i s = true -> f j s = true -> i = j) ->
  NoDup (flat_map (fun i => filter (f i) l) ids).
Proof.
  intros N NI U. induction NI as [|i ids I NI IH]; [constructor|]. cbn [flat_map]. apply NoDup_app_; [now apply NoDup_filter|exact IH|].
  intros s A B. apply filter_In in A. apply in_flat_map in B. destruct B as (j & J & B). apply filter_In in B. apply I. now rewrite (U s i j (proj1 A) (proj2 A) (proj2 B)).
Qed.
Lemma mux_all m x : mux_message m x -> Permutation (x :: mux_order set_list m x) (m_signals m).
Proof.
  intros M. pose proof M as (IX & ND & MX & MI & MS & NN & SEL & _).
  assert (NX : ~ In x (mux_order set_list m x)).
  { intros I. unfold mux_order in I. apply in_flat_map in I. destruct I as (i & _ & I). unfold selected in I. apply filter_In in I. destruct I as [_ I]. apply andb_true_iff in I. destruct I as [I _]. apply by_name_eq in I. congruence. }
  apply NoDup_Permutation; [constructor; [exact NX|]|exact ND|].
  - unfold mux_order, selected. apply nodup_pieces; [exact ND|apply SETS|]. intros s i j I A B. apply andb_true_iff in A, B. destruct A as [A1 A2], B as [_ B2].
    destruct (mux_children m x s M I A1) as [_ (_ & _ & k & E & _)]. unfold has_id, ids_of in A2, B2. rewrite E in A2, B2. cbn in A2, B2. rewrite orb_false_r in A2, B2. apply Z.eqb_eq in A2, B2. congruence.
  - intros s. split.
    + intros [<-|I]; [exact IX|]. unfold mux_order in I. apply in_flat_map in I. destruct I as (i & _ & I). unfold selected in I. apply filter_In in I. apply I.
    + intros I. destruct (SEL s I) as [->|(P & Q & k & E & D)]; [now left|right]. unfold mux_order. apply in_flat_map. exists k.
      assert (B : Kcd.multiplexed_by (s_name x) s = true) by now apply by_name_eq. split.
      * unfold mux_ids, child_ids. rewrite (proj2 (SETS _)). apply in_app_iff. left. apply in_flat_map. exists s. split; [apply filter_In; auto|]. unfold ids_of. rewrite E. now left.
      * unfold selected. apply filter_In. split; [exact I|]. rewrite B. unfold has_id, ids_of. rewrite E. cbn. now rewrite Z.eqb_refl.
Qed.
Lemma read_kept m sigs : read_signals set_list m sigs -> exists l, Permutation l (m_signals m) /\ Forall2 kept l sigs.
Proof.
  assert (V : forall l, (forall s, In s l -> s_is_mux s = false) -> Forall2 kept l (map view_signal l)).
  { induction l as [|s l IH]; intros H; constructor; [apply signal_view, H; now left|apply IH; intros y Y; apply H; now right]. }
  intros [[P ->]|(x & M & ->)].
  - exists (m_signals m). split; [reflexivity|]. apply V. intros s I. apply (P s I).
  - exists (x :: mux_order set_list m x). split; [now apply mux_all|]. constructor.
    + pose proof M as (_ & _ & MX & MI & MS & _). unfold kept. rewrite MX. unfold multiplexer_kept. cbn. rewrite MI, MS. repeat split.
    + apply V. intros s I. unfold mux_order in I. apply in_flat_map in I. destruct I as (i & _ & I). unfold selected in I. apply filter_In in I. destruct I as [I B]. apply andb_true_iff in B.
      now destruct (mux_children m x s M I (proj1 B)) as [_ (F & _)].
Qed.
Lemma seen_kept srt m m' : orders srt -> seen set_list srt m m' -> message_kept m m'.
Proof.
  intros S (sigs & R & ->). unfold loaded, message_kept. cbn. repeat (split; [reflexivity|]). split; [rewrite senders_section; apply senders_view|]. split; [apply value_view|]. split; [reflexivity|].
  destruct (read_kept m sigs R) as (l & P & F). destruct (Permutation_Forall2 (Permutation_sym (S sigs)) (Forall2_flip _ _ _ F)) as (l' & P' & F').
  exists l'. split; [rewrite <- P'; exact P|]. now apply Forall2_flip in F'.
Qed.

(** ** C61: the messages that are written to a SYM file are read from it.
    [set_list] is the order of the elements of a set, [srt] the order in which dump_string lists the signals and [srt'] the order that load_string gives them. *)
Theorem C61_round_trip srt srt' db : orders srt -> orders srt' -> sym_fit db ->
  exists text db' l, dump_string set_list srt db = Ok text /\ load_string srt' text = Ok db' /\ db_version db' = Some (txt "6.0") /\
    Permutation l (db_messages db) /\ Forall2 message_kept l (db_messages db').
Proof.
  intros S S' F. destruct (file_back set_list SETS srt srt' S db F) as (t & l0 & l & D & L & P & Q). exists t. eexists. exists l0. split; [exact D|]. split; [exact L|]. split; [reflexivity|].
  split; [now apply Permutation_sym|]. cbn [db_messages]. clear - Q S' SETS. induction Q; [constructor|constructor; [now apply (seen_kept srt')|assumption]].
Qed.
(** The signals of every message are read in the order of their start bits. *)
Theorem C61_signal_order srt db : orders srt -> sym_fit db ->
  exists text db', dump_string set_list srt db = Ok text /\ load_string sort_signals text = Ok db' /\ forall m, In m (db_messages db') -> start_order (m_signals m).
Proof.
  intros S F. destruct (file_back set_list SETS srt sort_signals S db F) as (t & l0 & l & D & L & P & Q). exists t. eexists. split; [exact D|]. split; [exact L|]. cbn [db_messages].
  clear - Q. induction Q as [|m m' a b H Q IH]; intros k I; [contradiction|]. destruct I as [<-|I]; [|now apply IH]. destruct H as (sigs & _ & ->). apply sort_ordered.
Qed.
(** Messages of one name with different ids are written as a range of ids: if an id of the range is missing, nothing is written. *)
Theorem C61_gaps_refused srt db a b i : NoDup (map (fun m => (m_name m, m_id m)) (db_messages db)) -> In a (db_messages db) -> In b (db_messages db) -> m_name a = m_name b ->
  m_id a <= i <= m_id b -> (forall c, In c (db_messages db) -> m_name c = m_name a -> m_id c <> i) -> forall text, dump_string set_list srt db <> Ok text.
Proof.
  intros ND IA IB N R NO text D. unfold dump_string, dump_rows in D. apply bind_ok in D. destruct D as (rows & D & _). apply bind_ok in D. destruct D as (l & D & _).
  set (L := sorted_py by_name (db_messages db)) in *. pose proof (sorted_py_perm by_name (db_messages db)) as PM. fold L in PM.
  assert (AP : ForallOrdPairs apart (groups L)). { apply groups_apart. apply sorted_py_sorted; unfold by_name; [intros x y E; now apply chars_leb_total|intros x y z X Y; now apply chars_leb_trans with (m_name y)]. }
  assert (GI : forall m, In m (db_messages db) -> exists g, In g (groups L) /\ In m g).
  { intros m I. apply (Permutation_in _ (Permutation_sym PM)) in I. rewrite <- (groups_flat L) in I. unfold flat in I. apply in_flat_map in I. exact I. }
  destruct (GI a IA) as (g & G & AG). destruct (GI b IB) as (h & H & BH).
  assert (BG : In b g).
  { apply in_split in G as SP. destruct SP as (l1 & l2 & SP). rewrite SP in H. apply in_app_iff in H. cbn [In] in H. assert (C : In h (l1 ++ l2) \/ h = g) by (rewrite in_app_iff; intuition (subst; auto)).
    destruct C as [C| ->]; [|exact BH]. exfalso. exact (apart_split (groups L) AP l1 g l2 SP h C a b AG BH N). }
  assert (GD : forall m, In m g -> In m (db_messages db)) by (intros m I; apply (Permutation_in _ PM); rewrite <- (groups_flat L); unfold flat; apply in_flat_map; eauto).
  assert (OKG : exists p, group_symbols set_list g = Ok p) by (apply (mapM_in _ _ _ D g G)). destruct OKG as (p & OKG).
  assert (NE : m_id a <> i) by (now apply NO). assert (NE' : m_id b <> i) by (apply NO; auto).
  destruct g as [|m [|m2 r]]; [contradiction|destruct AG as [->|[]], BG as [->|[]]; lia|].
  remember (m2 :: r) as r2. unfold group_symbols in OKG. rewrite Heqr2 in OKG. rewrite <- Heqr2 in OKG. destruct (Z.eqb_spec (greatest_id m r2 - m_id (least m r2) + 1) (zlen (m :: r2))) as [E|E]; [|discriminate].
  destruct (least_spec r2 m) as [_ LM]. destruct (greatest_spec r2 m) as [_ GM].
  assert (NG : NoDup (map m_id (m :: r2))).
  { assert (NF : NoDup (map (fun m => (m_name m, m_id m)) (flat (groups L)))) by (rewrite groups_flat; apply (Permutation_NoDup (Permutation_map _ (Permutation_sym PM))); exact ND).
    apply in_split in G as SP. destruct SP as (l1 & l2 & SP). rewrite SP in NF. unfold flat in NF. rewrite flat_map_app, map_app in NF. apply nodup_app_r_ in NF. cbn [flat_map] in NF. rewrite map_app in NF. apply nodup_app_l_ in NF.
    assert (SN : forall x, In x (m :: r2) -> m_name x = m_name m) by (intros x X; apply (groups_name L (m :: r2) x m G X); now left).
    revert SN NF. generalize (m_name m) as n. generalize (m :: r2) as k. clear. induction k as [|x k IH]; intros n SN NF; [constructor|]. cbn [map] in *. inversion NF as [|? ? NI NF']; subst. constructor; [|apply (IH n); [intros y Y; apply SN; now right|exact NF']].
    intros I. apply NI. apply in_map_iff in I. destruct I as (y & E & Y). apply in_map_iff. exists y. split; [|exact Y]. f_equal; [|exact E]. rewrite (SN y (or_intror Y)). symmetry. apply SN. now left. }
  assert (INC : incl (map m_id (m :: r2)) (remove Z.eq_dec i (zrange (m_id (least m r2)) (greatest_id m r2 + 1)))).
  { intros z Z. apply in_map_iff in Z. destruct Z as (c & <- & C). apply in_in_remove; [|unfold zrange; rewrite in_zrange_from; specialize (LM c C); specialize (GM c C); lia].
    apply NO; [now apply GD|]. apply (groups_name L (m :: r2) c a G C AG). }
  pose proof (NoDup_incl_length NG INC) as LE. rewrite map_length in LE.
  assert (LT : (List.length (remove Z.eq_dec i (zrange (m_id (least m r2)) (greatest_id m r2 + 1))) < List.length (zrange (m_id (least m r2)) (greatest_id m r2 + 1)))%nat).
  { apply remove_length_lt. unfold zrange. rewrite in_zrange_from. specialize (LM a AG). specialize (GM b BG). lia. }
  unfold zrange in LT at 2. rewrite zrange_len_ in LT. unfold zlen in E. lia.
Qed.
End Sets.
End Kept.

(** ** A database that meets the conditions *)
Import Prop_Dbc(TextFloats, TextLaws).
#[local] Existing Instance TextFloats.
#[local] Existing Instance TextLaws.
Ltac vm := match goal with |- _ = ?r => vm_cast_no_check (eq_refl r) end.
Definition mode : dsignal := DSignal (txt "Mode") 0 4 false false None (DInt 1) (DInt 0) false None None None None None [] true None None None [].
Definition speed : dsignal :=
  DSignal (txt "Speed") 15 16 true false None (DFloat (txt "0.5")) (DInt (-3)) false None (Some (DInt 0)) None (Some (txt "km/h")) (Some (txt "the speed")) [] false (Some [1]) (Some (txt "Mode")) None [].
Definition gear : dsignal :=
  DSignal (txt "Gear") 8 8 false true None (DInt 1) (DInt 0) false (Some [(-1, txt "back"); (1, txt "first gear")]) None None None None [] false (Some [0x9A]) (Some (txt "Mode")) (Some (AInt 12)) [].
Definition level : dsignal := DSignal (txt "Level") 3 4 false true None (DInt 2) (DInt 0) false None None None None None [] false None None None [].
Definition torque : dsignal := DSignal (txt "Torque") 32 32 false false None (DInt 1) (DInt 0) true None None None None None [] false None None None [].
Definition muxed : dmessage := DMessage 0x123 false (txt "Status") 8 [txt "ECU"] None (Some (AInt 100)) (Some (txt "a status")) [mode; gear; speed] false false None [].
Definition cell (i : Z) : dmessage := DMessage i true (txt "Cell") 8 [] None None None [level; torque] false false None [].
Definition sym_example : database := Db (Some (txt "1")) [] [] [cell 0xABC0; muxed; cell 0xABC2; cell 0xABC1] [] [] [] [] [] [] [].
Example C61_hypotheses : sym_fit sym_example /\ lists_set (fun l => nodup Z.eq_dec l) /\ orders sort_signals.
Proof.
  assert (ST : forall i, plain_message (cell i)) by (intros i s [<-|[<-|[]]]; repeat split).
  split; [|split; [intros l; split; [apply NoDup_nodup|intros x; apply nodup_In]|apply sort_orders]]. constructor.
  - vm_compute. reflexivity.
  - intros m [<-|[<-|[<-|[<-|[]]]]]; try (left; apply ST). right. exists mode. unfold mux_message. split; [now left|]. split; [|split; [reflexivity|split; [reflexivity|split; [reflexivity|split; [discriminate|split; [|split]]]]]].
    + repeat constructor; cbn; intuition discriminate.
    + intros s [<-|[<-|[<-|[]]]]; [now left|right|right]; (split; [reflexivity|split; [reflexivity|]]).
      * exists 0x9A. split; [reflexivity|]. right. exists 9, 1. lia.
      * exists 1. split; [reflexivity|]. right. exists 1, 0. lia.
    + intros i [].
    + left. exists speed. split; [right; right; now left|discriminate].
  - intros a b A B. unfold signals_of, sym_example in A, B. cbn in A, B.
    assert (C : forall s, (level = s \/ torque = s \/ mode = s \/ gear = s \/ speed = s \/ level = s \/ torque = s \/ level = s \/ torque = s \/ False) -> In s [level; torque; mode; gear; speed]) by (cbn; tauto).
    apply C in A, B. cbn [In] in A, B. intuition (subst; try discriminate; repeat split).
  - intros a b A B. unfold signals_of, sym_example in A, B. cbn in A, B.
    assert (C : forall s, (level = s \/ torque = s \/ mode = s \/ gear = s \/ speed = s \/ level = s \/ torque = s \/ level = s \/ torque = s \/ False) -> In s [level; torque; mode; gear; speed]) by (cbn; tauto).
    apply C in A, B. cbn [In] in A, B. intros NA NB E. clear C.
    destruct A as [<-|[<-|[<-|[<-|[<-|[]]]]]]; try (exfalso; apply NA; reflexivity); destruct B as [<-|[<-|[<-|[<-|[<-|[]]]]]]; try (exfalso; apply NB; reflexivity). reflexivity.
  - cbn. repeat constructor; cbn; intuition discriminate.
  - intros a b A B. cbn [db_messages sym_example In] in A, B. intuition (subst; try discriminate; repeat split).
  - intros a b i A B N R. cbn [db_messages sym_example In] in *.
    assert (RA : a = muxed \/ exists j, a = cell j /\ 0xABC0 <= j <= 0xABC2) by (destruct A as [<-|[<-|[<-|[<-|[]]]]]; [right|left; reflexivity|right|right]; (eexists; split; [reflexivity|lia])).
    assert (RB : b = muxed \/ exists j, b = cell j /\ 0xABC0 <= j <= 0xABC2) by (destruct B as [<-|[<-|[<-|[<-|[]]]]]; [right|left; reflexivity|right|right]; (eexists; split; [reflexivity|lia])).
    destruct RA as [->|(j & -> & J)], RB as [->|(k & -> & K)]; try discriminate; cbn [m_id cell muxed] in R.
    + exists muxed. repeat split; [tauto|cbn; lia].
    + assert (E : i = 0xABC0 \/ i = 0xABC1 \/ i = 0xABC2) by lia. exists (cell i). repeat split. destruct E as [->|[->| ->]]; tauto.
  - intros a b A B N. cbn [db_messages sym_example In] in *. intuition (subst; try discriminate; try (left; apply ST); right; reflexivity).
Qed.
(** The file that is written for it *)
Definition lines (l : list string) : chars := List.concat (map (fun s => map (fun c => if Ascii.eqb c "'" then quote else c) (txt s) ++ [newline]) l).
Example C61_text : dump_string (fun l => nodup Z.eq_dec l) sort_signals sym_example = Ok (lines
  ["FormatVersion=6.0 // Do not edit this line!"; "Title='SYM Database'"; "";
   "{ENUMS}"; "Enum=GearE(-1='back', 1='first gear')"; "";
   "{SIGNALS}"; "Sig='Level' signed 4 /f:2"; "Sig='Torque' float 32"; "Sig='Mode' unsigned 4"; "Sig='Gear' signed 8 /spn:12 /e:GearE";
   "Sig='Speed' unsigned 16 -m /u:'km/h' /f:0.5 /o:-3 /min:0 // the speed"; "";
   "{SEND}"; "['Status']"; "ID=123h // a status"; "Len=8"; "CycleTime=100"; "Mux='Mode' 0,4 9Ah "; "Sig='Gear' 8"; "";
   "['Status']"; "Len=8"; "CycleTime=100"; "Mux='Mode' 0,4 1h "; "Sig='Speed' 8"; "";
   "{SENDRECEIVE}"; "['Cell']"; "ID=0000ABC0h-0000ABC2h"; "Type=Extended"; "Len=8"; "Sig='Level' 3"; "Sig='Torque' 32"; ""]).
Proof. vm. Qed.

(** ** Databases outside the conditions *)
Ltac parts := lazymatch goal with |- _ /\ _ => refine (conj _ _); [|parts] | _ => idtac end.
Definition set_of (l : list Z) : list Z := nodup Z.eq_dec l.
Definition through (l : list dmessage) : result database :=
  match dump_string set_of sort_signals (Db None [] [] l [] [] [] [] [] [] []) with Ok t => load_string sort_signals t | Err e => Err e end.
Definition written_ (l : list dmessage) : bool := match dump_string set_of sort_signals (Db None [] [] l [] [] [] [] [] [] []) with Ok _ => true | Err _ => false end.
Definition mux_sig (n : string) (start : Z) (mux : bool) (ids : option (list Z)) (parent : option chars) : dsignal :=
  DSignal (txt n) start 8 false false None (DInt 1) (DInt 0) false None None None None None [] mux ids parent None [].
Definition message (i : Z) (l : list dsignal) : dmessage := DMessage i false (txt "M") 8 [] None None None l false false None [].
Definition the_signals (r : result database) : list (list (chars * bool * option (list Z))) :=
  match r with Ok d => map (fun m => map (fun s => (s_name s, s_is_mux s, s_mux_ids s)) (m_signals m)) (db_messages d) | Err _ => [] end.
(** A multiplexer id whose hexadecimal text starts with a letter: the file cannot be read. *)
Theorem C61_letter_id_refuted : exists m, map s_mux_ids (m_signals m) = [None; Some [10]] /\ written_ [m] = true /\ through [m] = Err ParseError.
Proof. exists (message 5 [mux_sig "A" 0 true None None; mux_sig "B" 8 false (Some [10]) (Some (txt "A"))]). parts; vm. Qed.
(** Two messages of one name with a multiplexer and two ids: the file cannot be read. *)
Theorem C61_multiplexed_range_refuted : exists l, map m_name l = [txt "M"; txt "M"] /\ map m_id l = [5; 6] /\ written_ l = true /\ through l = Err ParseError.
Proof.
  pose (k := [mux_sig "A" 0 true None None; mux_sig "B" 8 false (Some [1]) (Some (txt "A")); mux_sig "C" 8 false (Some [2]) (Some (txt "A"))]).
  exists [message 5 k; message 6 k]. parts; vm.
Qed.
(** A signal beside a multiplexer is read as a signal of every id. *)
Theorem C61_beside_multiplexer_refuted : exists m, map (fun s => (s_name s, s_mux_ids s)) (m_signals m) = [(txt "A", None); (txt "B", Some [1]); (txt "C", Some [2]); (txt "D", None)] /\
  the_signals (through [m]) = [[(txt "A", true, None); (txt "B", false, Some [1]); (txt "C", false, Some [2]); (txt "D", false, Some [1]); (txt "D", false, Some [2])]].
Proof.
  exists (message 5 [mux_sig "A" 0 true None None; mux_sig "B" 8 false (Some [1]) (Some (txt "A")); mux_sig "C" 8 false (Some [2]) (Some (txt "A")); mux_sig "D" 16 false None None]).
  parts; vm.
Qed.
(** A signal with several multiplexer ids is read once for each of them. *)
Theorem C61_multiplexer_ids_refuted : exists m, map s_mux_ids (m_signals m) = [None; Some [1; 2]] /\
  the_signals (through [m]) = [[(txt "A", true, None); (txt "B", false, Some [1]); (txt "B", false, Some [2])]].
Proof. exists (message 5 [mux_sig "A" 0 true None None; mux_sig "B" 8 false (Some [1; 2]) (Some (txt "A"))]). parts; vm. Qed.
(** Multiplexers within multiplexers cannot be written. *)
Theorem C61_nested_multiplexing_refuted : exists m, written_ [m] = false /\ through [m] = Err TypeError.
Proof. exists (message 5 [mux_sig "A" 0 true None None; mux_sig "B" 8 true (Some [1]) (Some (txt "A")); mux_sig "C" 16 false (Some [2]) (Some (txt "B"))]). parts; vm. Qed.
(** A multiplexer that selects nothing is read as a plain signal. *)
Theorem C61_empty_multiplexer_refuted : exists m, map s_is_mux (m_signals m) = [true] /\ the_signals (through [m]) = [[(txt "A", false, None)]].
Proof. exists (message 5 [mux_sig "A" 0 true None None]). parts; vm. Qed.
(** Signals of one name in two messages: the second is read with the length of the first. *)
Theorem C61_same_name_refuted : exists a b, map (fun s => (s_name s, s_length s)) (m_signals a) = [(txt "S", 8)] /\ map (fun s => (s_name s, s_length s)) (m_signals b) = [(txt "S", 16)] /\
  match through [a; b] with Ok d => map (fun m => map s_length (m_signals m)) (db_messages d) = [[8]; [8]] | Err _ => False end.
Proof.
  exists (message 5 [mux_sig "S" 0 false None None]),
    (DMessage 6 false (txt "N") 8 [] None None None [DSignal (txt "S") 0 16 false false None (DInt 1) (DInt 0) false None None None None None [] false None None None []] false false None []).
  split; [reflexivity|]. split; [reflexivity|]. vm_compute. reflexivity.
Qed.
(** Two signals with enumerations whose names are the same in their first 31 characters: the first is read with the values of the second. *)
Definition choice_sig (n : string) (start : Z) (t : string) : dsignal :=
  DSignal (txt n) start 8 false false None (DInt 1) (DInt 0) false (Some [(0, txt t)]) None None None None [] false None None None [].
Theorem C61_enumeration_name_refuted : exists m, map s_choices (m_signals m) = [Some [(0, txt "off")]; Some [(0, txt "red")]] /\
  match through [m] with Ok d => map (fun m => map s_choices (m_signals m)) (db_messages d) = [[Some [(0, txt "red")]; Some [(0, txt "red")]]] | Err _ => False end.
Proof.
  exists (message 5 [choice_sig "A_very_long_name_of_thirty_one_c1" 0 "off"; choice_sig "A_very_long_name_of_thirty_one_c2" 8 "red"]). split; [reflexivity|]. vm_compute. reflexivity.
Qed.
(** A float of 16 bits is read with 32 bits. *)
Theorem C61_half_float_refuted : exists s, s_float s = true /\ s_length s = 16 /\
  match through [message 5 [s]] with Ok d => map (fun m => map s_length (m_signals m)) (db_messages d) = [[32]] | Err _ => False end.
Proof. exists (DSignal (txt "S") 0 16 false false None (DInt 1) (DInt 0) true None None None None None [] false None None None []). split; [reflexivity|]. split; [reflexivity|]. vm_compute. reflexivity. Qed.
(** A comment of two lines, or a quotation mark in a unit: the file cannot be read. *)
Definition comment_unit (c u : chars) : dsignal := DSignal (txt "S") 0 8 false false None (DInt 1) (DInt 0) false None None None (Some u) (Some c) [] false None None None [].
Theorem C61_text_refuted : written_ [message 5 [comment_unit (txt "a" ++ newline :: txt "b") []]] = true /\ through [message 5 [comment_unit (txt "a" ++ newline :: txt "b") []]] = Err ParseError /\
  written_ [message 5 [comment_unit [] [quote]]] = true /\ through [message 5 [comment_unit [] [quote]]] = Err ParseError.
Proof. parts; vm. Qed.
(** The gap is not seen if an id is there twice: three messages are read, with other ids. *)
Theorem C61_repeated_id_refuted : exists l, map m_id l = [5; 5; 7] /\ match through l with Ok d => map m_id (db_messages d) = [5; 6; 7] | Err _ => False end.
Proof. exists [message 5 []; message 5 []; message 7 []]. split; [reflexivity|]. vm_compute. reflexivity. Qed.
(** Ids that are not next to each other: the hypotheses of [C61_gaps_refused] *)
Example C61_gap : exists l, NoDup (map (fun m => (m_name m, m_id m)) l) /\ map m_id l = [5; 7] /\ (forall c, In c l -> m_name c = txt "M" -> m_id c <> 6) /\ through l = Err ValueError.
Proof. exists [message 5 []; message 7 []]. split; [repeat constructor; cbn; intuition discriminate|]. split; [reflexivity|]. split; [intros c [<-|[<-|[]]] _; discriminate|vm]. Qed.
