(** Prop_Kcd: C57 and C58, the round trip of a CAN database through a KCD file and the length that is computed for a
    message without a length (formats/kcd.py dump_string, load_string). *)
From Coq Require Import Ascii Permutation Sorting.Sorted.
From Verif Require Import Base CSource CNames DictLemmas Regex DecText DbcToken DbcLex DbcStmt DbcPieces DbcDump DbcLoad DbcTables DbcFit DbcWrite Logreader LogSpec LogProofs Xml XmlProofs Kcd KcdProofs.
From Verif Require Conversion Signal LayoutSpec BitsLemmas Prop_Dbc.
Local Open Scope string_scope.
Local Open Scope Z_scope.
Local Open Scope list_scope.

(** ** The order of the signals *)
Section Order.
Context {FL : Floats} {LW : FloatLaws FL}.
Implicit Types (s : dsignal) (m : dmessage) (db : database).

Lemma put_count_perm d p : Permutation (flat_map snd (put_count d p)) (flat_map snd d ++ [snd p]).
Proof.
  unfold put_count. destruct p as [i x]. cbn [fst snd]. induction d as [|[j l] d IH]; [apply Permutation_refl|]. cbn [dget dset].
  destruct (Z.eqb_spec j i) as [->|N]; cbn [flat_map snd].
  - rewrite <- !app_assoc. apply Permutation_app_head. apply Permutation_app_comm.
  - rewrite <- app_assoc. apply Permutation_app_head, IH.
Qed.
Lemma by_count_perm l : Permutation (flat_map snd (by_count l)) (map snd l).
Proof.
  unfold by_count. assert (G : forall l d, Permutation (flat_map snd (fold_left put_count l d)) (flat_map snd d ++ map snd l)).
  { clear. induction l as [|p l IH]; intros d; cbn [fold_left map]; [rewrite app_nil_r; apply Permutation_refl|]. rewrite IH, put_count_perm, <- app_assoc. apply Permutation_refl. }
  apply (G l []).
Qed.
Lemma the_counts_perm n l : Permutation (flat_map snd (the_counts n l)) (filter (multiplexed_by n) l).
Proof. unfold the_counts. rewrite by_count_perm, map_map. cbn [snd]. rewrite map_id. apply Permutation_refl. Qed.
Lemma filter_or {A} (p q : A -> bool) l : (forall x, In x l -> p x = true -> q x = true -> False) -> Permutation (filter p l ++ filter q l) (filter (fun x => p x || q x) l).
Proof.
  induction l as [|x l IH]; intros H; [apply Permutation_refl|]. cbn [filter]. specialize (IH (fun y I => H y (or_intror I))). pose proof (H x (or_introl eq_refl)) as X.
  destruct (p x), (q x); cbn [orb app]; [exfalso; auto|now constructor| |exact IH]. rewrite <- Permutation_middle. now constructor.
Qed.
Lemma filter_split {A} (p : A -> bool) l : Permutation (filter p l ++ filter (fun x => negb (p x)) l) l.
Proof. induction l as [|x l IH]; [apply Permutation_refl|]. cbn [filter]. destruct (p x); cbn [negb app]; [now constructor|]. rewrite <- Permutation_middle. now constructor. Qed.
Lemma groups_perm l ks : NoDup (map s_name ks) ->
  Permutation (flat_map (fun k => filter (multiplexed_by (s_name k)) l) ks) (filter (fun x => existsb (fun k => multiplexed_by (s_name k) x) ks) l).
Proof.
  induction ks as [|k ks IH]; intros N.
  - cbn [flat_map existsb]. induction l; [apply Permutation_refl|exact IHl].
  - cbn [map] in N. inversion N as [|? ? N1 N2]; subst. cbn [flat_map existsb]. rewrite IH by exact N2. apply filter_or.
    intros x _ P Q. apply N1. apply existsb_exists in Q. destruct Q as (k' & I & Q). apply multiplexed_true in P, Q. rewrite P in Q. injection Q as Q. rewrite Q. now apply in_map.
Qed.
Lemma flat_cons {A} (f : A -> list A) ks : Permutation (flat_map (fun k => k :: f k) ks) (ks ++ flat_map f ks).
Proof.
  induction ks as [|k ks IH]; [apply Permutation_refl|]. cbn [flat_map app]. constructor. rewrite IH. rewrite !app_assoc. apply Permutation_app_tail, Permutation_app_comm.
Qed.
Lemma file_order_perm nodes l : fit_signals nodes l -> Permutation (file_order l) l.
Proof.
  intros [H N]. unfold file_order, with_group. rewrite flat_cons.
  assert (G : Permutation (flat_map (fun k => flat_map snd (the_counts (s_name k) l)) (filter s_is_mux l)) (filter (fun s => negb (s_is_mux s) && negb (is_plain s)) l)).
  { transitivity (flat_map (fun k => filter (multiplexed_by (s_name k)) l) (filter s_is_mux l)).
    - generalize (filter s_is_mux l) as ks. intros ks. induction ks as [|k ks IH]; [apply Permutation_refl|]. cbn [flat_map]. apply Permutation_app; [apply the_counts_perm|exact IH].
    - rewrite groups_perm by exact N. rewrite (filter_ext_in _ (fun s => negb (s_is_mux s) && negb (is_plain s))); [apply Permutation_refl|].
      intros s I. destruct (H s I) as [_ K]. destruct (mux_cases l s K) as [[E1 E2]|(M & i & n & E1 & E2 & p & PI & PM & PN)].
      + transitivity false.
        * destruct (existsb _ _) eqn:E; [|reflexivity]. apply existsb_exists in E. destruct E as (k & _ & E). apply multiplexed_true in E. congruence.
        * unfold is_plain. rewrite E1, andb_true_r, negb_involutive. now destruct (s_is_mux s).
      + transitivity true.
        * apply existsb_exists. exists p. split; [apply filter_In; auto|]. unfold multiplexed_by. rewrite E2. subst n. apply chars_eqb_refl.
        * unfold is_plain. rewrite M, E1. reflexivity. }
  rewrite G. transitivity (filter s_is_mux l ++ filter (fun s => negb (s_is_mux s)) l); [|apply filter_split]. rewrite <- app_assoc. apply Permutation_app_head.
  rewrite filter_or.
  - rewrite (filter_ext_in _ (fun s => negb (s_is_mux s))); [apply Permutation_refl|]. intros s _. unfold is_plain. destruct (s_is_mux s); [reflexivity|]. cbn [negb andb]. now destruct (s_mux_ids s).
  - intros s _ P Q. rewrite Q in P. rewrite andb_false_r in P. discriminate P.
Qed.
End Order.

Section Kcd.
Context {FL : Floats} {LW : FloatLaws FL}.
Implicit Types (s : dsignal) (m : dmessage) (db : database).

(** ** What it means that a signal and a message are kept *)
(** An empty comment is lost; line ends are normalised. *)
Definition comment_kept (c c' : option chars) : Prop :=
  (c = None \/ c = Some [] -> c' = None) /\ forall t, c = Some t -> t <> [] -> c' = Some (line_ends t).
(** A number that equals the default is read as the default. *)
Definition number_kept (default : Z) (a b : num) : Prop := if num_is a default then b = DInt default else b = a.
Definition signal_kept s s' : Prop :=
  s_name s' = s_name s /\ s_start s' = s_start s /\ s_length s' = s_length s /\ s_big s' = s_big s /\ s_float s' = s_float s /\
  (s_float s = false -> s_signed s' = s_signed s) /\ number_kept 1 (s_scale s) (s_scale s') /\ number_kept 0 (s_offset s) (s_offset s') /\
  (s_choices s <> Some [] -> s_choices s' = s_choices s) /\ s_min s' = s_min s /\ s_max s' = s_max s /\ s_unit s' = s_unit s /\
  comment_kept (s_comment s) (s_comment s') /\ s_receivers s' = s_receivers s /\ s_is_mux s' = s_is_mux s /\ s_mux_ids s' = s_mux_ids s /\
  s_mux_signal s' = s_mux_signal s.
Definition message_kept m m' : Prop :=
  m_id m' = m_id m /\ m_extended m' = m_extended m /\ m_name m' = m_name m /\ m_length m' = m_length m /\ m_senders m' = m_senders m /\
  m_cycle_time m' = m_cycle_time m /\ comment_kept (m_comment m) (m_comment m') /\
  exists l, Permutation l (m_signals m) /\ Forall2 signal_kept l (m_signals m').

Lemma comment_view c : comment_kept c (view_comment c).
Proof. split; [intros [-> | ->]; reflexivity|]. intros t -> N. destruct t; [congruence|reflexivity]. Qed.
Lemma number_view n z : number_kept z n (view_num n z).
Proof. unfold number_kept, view_num. destruct (num_is n z); reflexivity. Qed.
Lemma signal_view s : signal_kept s (view_signal s).
Proof.
  repeat (split; [reflexivity|]). split; [cbn; intros ->; apply andb_true_r|]. split; [apply number_view|]. split; [apply number_view|].
  split; [cbn; destruct (s_choices s) as [[|p l]|]; [congruence|reflexivity|reflexivity]|]. repeat (split; [reflexivity|]). split; [apply comment_view|].
  repeat (split; [reflexivity|]). reflexivity.
Qed.
(** Any way to order signals; load_string uses the start bits by default and dump_string the order of the message. *)
Definition orders (srt : list dsignal -> list dsignal) : Prop := forall l, Permutation (srt l) l.
Lemma sort_orders : orders sort_signals. Proof. intros l. apply sorted_py_perm. Qed.
Lemma view_kept nodes srt srt' m : orders srt -> orders srt' -> kcd_message (map n_name nodes) m = true -> message_kept m (view_message srt srt' m).
Proof.
  unfold orders. intros S S' H. repeat (split; [reflexivity|]). split; [apply comment_view|].
  assert (P : Permutation (srt' (map view_signal (file_order (srt (m_signals m))))) (map view_signal (m_signals m))).
  { rewrite S'. apply Permutation_map. rewrite (file_order_perm nodes); [apply S|]. now apply message_sorted. }
  apply Permutation_map_inv in P. destruct P as (l & E & P). exists l. split; [now apply Permutation_sym|].
  change (m_signals (view_message srt srt' m)) with (srt' (map view_signal (file_order (srt (m_signals m))))). rewrite E. clear.
  induction l as [|s l IH]; constructor; [apply signal_view|exact IH].
Qed.

(** ** C57: the file that is written for a database is read as the same database, on one bus. *)
Theorem C57_round_trip srt srt' db : orders srt -> orders srt' -> kcd_fit db = true ->
  exists text k, dump_string srt db = Ok text /\ load_string srt' text = Ok k /\
    k_version k = Some (match db_version db with Some v => v | None => [] end) /\ k_nodes k = map n_name (db_nodes db) /\
    k_buses k = [(txt "Bus", 500000)] /\ Forall2 (fun m p => fst p = txt "Bus" /\ message_kept m (snd p)) (db_messages db) (k_messages k).
Proof.
  intros S S' F. destruct (load_dump srt srt' S db F) as (t & D & L). exists t, (view_database srt srt' db). split; [exact D|]. split; [exact L|].
  repeat (split; [reflexivity|]). unfold view_database. cbn [k_messages]. unfold kcd_fit in F. apply andb_true_iff in F. destruct F as [_ F].
  induction (db_messages db) as [|m l IH]; [constructor|]. cbn [forallb] in F. apply andb_true_iff in F. destruct F as [F1 F2]. cbn [map]. constructor; [|now apply IH].
  split; [reflexivity|]. now apply (view_kept (db_nodes db)).
Qed.

(** The signals are read in the order of their start bits: in the order of the message if that is the order of the message and no two signals start at the same bit. *)
Definition start_order (l : list dsignal) : Prop := StronglySorted (fun a b => start_bit a <= start_bit b) l.
Lemma sort_ordered l : start_order (sort_signals l).
Proof.
  unfold start_order, sort_signals. assert (G : StronglySorted (fun a b => by_start a b = true) (sorted_py by_start l)).
  { apply sorted_py_sorted; unfold by_start; intros; lia. }
  induction G; constructor; [assumption|]. eapply Forall_impl; [|eassumption]. cbn. unfold by_start. intros; lia.
Qed.
Lemma sorted_unique l : forall l', start_order l -> start_order l' -> NoDup (map start_bit l) -> Permutation l l' -> l = l'.
Proof.
  induction l as [|x l IH]; intros l' S S' N P; [symmetry; now apply Permutation_nil|]. destruct l' as [|y l']; [apply Permutation_sym, Permutation_nil in P; discriminate P|].
  inversion S as [|? ? S1 S2]; subst. inversion S' as [|? ? S1' S2']; subst. cbn [map] in N. inversion N as [|? ? N1 N2]; subst. rewrite Forall_forall in S2, S2'.
  assert (E : x = y).
  { assert (I : In y (x :: l)) by (apply (Permutation_in _ (Permutation_sym P)); now left). destruct I as [I|I]; [exact I|].
    assert (J : In x (y :: l')) by (apply (Permutation_in _ P); now left). destruct J as [J|J]; [now symmetry|].
    specialize (S2 y I). specialize (S2' x J). exfalso. apply N1. replace (start_bit x) with (start_bit y) by lia. now apply in_map. }
  subst y. f_equal. apply IH; try assumption. now apply Permutation_cons_inv in P.
Qed.
Theorem C57_signal_order srt db : orders srt -> kcd_fit db = true ->
  exists text k, dump_string srt db = Ok text /\ load_string sort_signals text = Ok k /\
    Forall2 (fun m p => start_order (m_signals (snd p)) /\
               (start_order (m_signals m) -> NoDup (map start_bit (m_signals m)) -> Forall2 signal_kept (m_signals m) (m_signals (snd p)))) (db_messages db) (k_messages k).
Proof.
  intros S F. destruct (load_dump srt sort_signals S db F) as (t & D & L). exists t, (view_database srt sort_signals db). split; [exact D|]. split; [exact L|].
  unfold view_database. cbn [k_messages]. unfold kcd_fit in F. apply andb_true_iff in F. destruct F as [_ F].
  induction (db_messages db) as [|m l IH]; [constructor|]. cbn [forallb] in F. apply andb_true_iff in F. destruct F as [F1 F2]. cbn [map]. constructor; [|now apply IH].
  cbn [snd]. change (m_signals (view_message srt sort_signals m)) with (sort_signals (map view_signal (file_order (srt (m_signals m))))). split; [apply sort_ordered|].
  intros O N.
  assert (E : map view_signal (m_signals m) = sort_signals (map view_signal (file_order (srt (m_signals m))))).
  { apply sorted_unique; [|apply sort_ordered| |].
    - revert O. generalize (m_signals m) as k. clear. induction 1 as [|x k SO IH FO]; cbn [map]; constructor; [exact IH|]. rewrite Forall_forall in *. intros y I.
      apply in_map_iff in I. destruct I as (z & <- & I). exact (FO z I).
    - rewrite map_map. exact N.
    - rewrite (sort_orders _ : Permutation (sort_signals _) _). apply Permutation_map. rewrite (file_order_perm (db_nodes db)); [apply Permutation_sym, S|]. now apply message_sorted. }
  rewrite <- E. clear. induction (m_signals m) as [|s k IH]; constructor; [apply signal_view|exact IH].
Qed.

(** ** C58: a message without a length gets the least length that its signals fit in. *)
Definition layout s : Signal.signal :=
  Signal.mkSignal "" (s_start s) (s_length s) (s_big s) (s_signed s) (Conversion.CNum (Conversion.CIdent false)) None None false None None.
Lemma fold_max (f : dsignal -> Z) l : forall a n, fold_left (fun a s => Z.max a (f s)) l a <= n <-> a <= n /\ forall s, In s l -> f s <= n.
Proof.
  induction l as [|x l IH]; intros a n; cbn [fold_left]; [split; [intros H; split; [exact H|contradiction]|now intros [H _]]|]. rewrite IH. split.
  - intros [H1 H2]. split; [lia|]. intros s [<-|I]; [lia|now apply H2].
  - intros [H1 H2]. split; [|intros s I; apply H2; now right]. specialize (H2 x (or_introl eq_refl)). lia.
Qed.
Lemma auto_length_le l n : 0 <= n -> (auto_length l <= n <-> forall s, In s l -> start_bit s + s_length s <= 8 * n).
Proof.
  intros N. destruct l as [|x l]; [cbn; split; [contradiction|lia]|]. unfold auto_length.
  set (a := fold_left _ l _). assert (D : (a + 7) / 8 <= n <-> a <= 8 * n).
  { split; intros H.
    - pose proof (Z.div_mod (a + 7) 8 ltac:(lia)). pose proof (Z.mod_pos_bound (a + 7) 8 ltac:(lia)). lia.
    - pose proof (Z.div_mod (a + 7) 8 ltac:(lia)). pose proof (Z.mod_pos_bound (a + 7) 8 ltac:(lia)). lia. }
  rewrite D. subst a. rewrite (fold_max (fun s => start_bit s + s_length s)). split; [intros [H1 H2] s [<-|I]; auto|intros H; split; [apply H; now left|intros s I; apply H; now right]].
Qed.
Lemma start_nonneg s : 0 <= s_start s -> 0 <= start_bit s.
Proof.
  intros H. unfold start_bit. destruct (s_big s); [|exact H]. pose proof (Z.mod_pos_bound (s_start s) 8 ltac:(lia)). pose proof (Z.div_pos (s_start s) 8 H ltac:(lia)). lia.
Qed.
Lemma auto_length_nonneg l : (forall s, In s l -> 0 <= s_start s /\ 0 < s_length s) -> 0 <= auto_length l.
Proof.
  intros H. destruct l as [|x l]; [cbn; lia|]. destruct (H x (or_introl eq_refl)) as [H1 H2].
  pose proof (start_nonneg x H1) as B.
  unfold auto_length. apply Z.div_pos; [|lia]. set (a := fold_left _ _ _). assert (start_bit x + s_length x <= a); [|lia]. subst a. generalize (start_bit x + s_length x) as a. clear.
  induction l as [|y l IH]; intros a; cbn [fold_left]; [lia|]. specialize (IH (Z.max a (start_bit y + s_length y))). lia.
Qed.
Theorem C58_auto_length srt nodes e m : orders srt -> load_message srt nodes e = Ok m -> attr e "length" = None \/ attr e "length" = Some (txt "auto") ->
  (forall s, In s (m_signals m) -> 0 <= s_start s /\ 0 < s_length s) ->
  0 <= m_length m /\ forall n, 0 <= n -> ((forall s, In s (m_signals m) -> LayoutSpec.sig_fits n (layout s)) <-> m_length m <= n).
Proof.
  intros S L A H. unfold load_message in L.
  repeat (apply bind_ok in L; destruct L as (? & ? & L)). injection L as <-. cbn [m_length m_signals] in *.
  match goal with E : load_length (attr e "length") ?k = Ok ?n |- _ => set (l := k) in *; assert (EL : auto_length l = n) by (destruct A as [A|A]; rewrite A in E; cbn in E; congruence) end.
  subst. assert (SI : forall s, In s (srt l) <-> In s l).
  { intros s. split; apply Permutation_in; [apply S|apply Permutation_sym, S]. }
  split; [apply auto_length_nonneg; intros s I; now apply H, SI|].
  intros n N. rewrite auto_length_le by exact N. split; intros G s I.
  - destruct (H s (proj2 (SI s) I)) as [Y1 Y2]. specialize (G s (proj2 (SI s) I)). apply (BitsLemmas.sig_fits_iff n (layout s)) in G; [|exact Y2]. destruct G as [_ G]. exact G.
  - apply SI in I. destruct (H s (proj2 (SI s) I)) as [Y1 Y2]. apply (BitsLemmas.sig_fits_iff n (layout s)); [exact Y2|]. split; [|exact (G s I)].
    exact (start_nonneg s Y1).
Qed.
End Kcd.

(** ** A database that meets the conditions *)
Import Prop_Dbc.
#[local] Existing Instance TextFloats.
#[local] Existing Instance TextLaws.
Definition kcd_example : database :=
  Db (Some (txt "1.0 <beta>")) [Node (txt "Engine & Gearbox") None []; Node (txt "Gateway") None []] []
    [DMessage 291 false (txt "Status") 8 [txt "Gateway"] None (Some (AInt 100)) (Some (txt "a < b")) 
       [DSignal (txt "Mode") 0 4 false false None (DInt 1) (DInt 0) false (Some [(0, txt "off"); (1, txt "on")]) None None None None [] true None None None [];
        DSignal (txt "Level") 4 4 false true None (DInt 2) (DInt (-3)) false None (Some (DInt (-19))) (Some (DInt 11)) (Some (txt "%")) None [txt "Engine & Gearbox"] false None None None [];
        DSignal (txt "Speed") 15 16 true false None (DFloat (txt "0.5")) (DFloat (txt "0.0")) false None None None (Some (txt "km/h")) (Some (txt "the speed")) [txt "Gateway"; txt "Engine & Gearbox"] false (Some [1]) (Some (txt "Mode")) None [];
        DSignal (txt "Torque") 32 32 false false None (DInt 1) (DInt 0) true None None None None None [] false (Some [0]) (Some (txt "Mode")) None []] false false None [];
     DMessage 419364096 true (txt "Empty") 0 [] None None None [] false false None []] [] [] [] [] [] [] [].
Example C57_hypotheses : kcd_fit kcd_example = true /\ orders sort_signals /\ orders (fun l => l).
Proof. split; [vm_compute; reflexivity|]. split; [apply sort_orders|]. intros l. apply Permutation_refl. Qed.
(** Offsets, labels and groups as they are written *)
Definition kcd_small : database :=
  Db None [Node (txt "N") None []] []
    [DMessage 1 false (txt "M") 2 [txt "N"] None None None
       [DSignal (txt "A") 0 2 false true None (DInt 1) (DInt 0) false None None None None None [] true None None None [];
        DSignal (txt "B") 15 8 true false None (DInt 3) (DInt 0) false (Some [(2, txt "two")]) None None None None [] false (Some [1]) (Some (txt "A")) None []] false false None []]
    [] [] [] [] [] [] [].
Definition q : string := String quote EmptyString.
Definition nl : string := String lf EmptyString.
Definition lines (l : list string) : chars := List.concat (map (fun s => txt s ++ [lf]) l).
Example C57_text : dump_string (fun l => l) kcd_small = Ok (map (fun c => if Ascii.eqb c "'" then quote else c) (lines
  ["<NetworkDefinition xmlns:xsi='http://www.w3.org/2001/XMLSchema-instance' xmlns='http://kayak.2codeornot2code.org/1.0' xsi:noNamespaceSchemaLocation='Definition.xsd'>";
   "  <Document version='' />";
   "  <Node id='1' name='N' />";
   "  <Bus name='Bus'>";
   "    <Message id='0x001' name='M' length='2'>";
   "      <Producer>";
   "        <NodeRef id='1' />";
   "      </Producer>";
   "      <Multiplex name='A' offset='0' length='2'>";
   "        <Value type='signed' />";
   "        <MuxGroup count='1'>";
   "          <Signal name='B' offset='8' length='8' endianess='big'>";
   "            <Value slope='3' />";
   "            <LabelSet>";
   "              <Label name='two' value='2' />";
   "            </LabelSet>";
   "          </Signal>";
   "        </MuxGroup>";
   "      </Multiplex>";
   "    </Message>";
   "  </Bus>";
   "</NetworkDefinition>"])).
Proof. vm_compute. reflexivity. Qed.

(** ** Databases outside the conditions *)
Definition kthrough (db : database) : result kcd := match dump_string (fun l => l) db with Ok t => load_string sort_signals t | Err e => Err e end.
Definition kcd_db (m : dmessage) : database := Db None [] [] [m] [] [] [] [] [] [] [].
Definition kfirst (r : result kcd) : option dmessage := match r with Ok k => option_map snd (hd_error (k_messages k)) | Err _ => None end.
Definition with_comment (c : chars) : dmessage := DMessage 5 false (txt "M") 8 [] None None (Some c) [] false false None [].
Definition muxing (n : string) (start : Z) (mux : bool) (ids : option (list Z)) (parent : option chars) : dsignal :=
  DSignal (txt n) start 8 false false None (DInt 1) (DInt 0) false None None None None None [] mux ids parent None [].
Definition with_muxing (l : list dsignal) : dmessage := DMessage 5 false (txt "M") 8 [] None None None l false false None [].

(** An empty comment is lost, and a carriage return in a comment becomes a line feed. *)
Theorem C57_comment_refuted : option_map m_comment (kfirst (kthrough (kcd_db (with_comment [])))) = Some None /\
  option_map m_comment (kfirst (kthrough (kcd_db (with_comment [cr])))) = Some (Some [lf]).
Proof. split; vm. Qed.
(** A control character in a comment is written, but the file is not XML. *)
Theorem C57_control_character_refuted : exists m, m_comment m = Some ["001"%char] /\ fails (dump_string (fun l => l) (kcd_db m)) = false /\ kthrough (kcd_db m) = Err ParseError.
Proof. exists (with_comment ["001"%char]). repeat split; vm. Qed.
(** A multiplexed multiplexer: its signal is written twice, and the multiplexer of the inner signals is no longer multiplexed. *)
Definition nested_message : dmessage := with_muxing
  [muxing "Outer" 0 true None None; muxing "Inner" 8 true (Some [1]) (Some (txt "Outer")); muxing "Leaf" 16 false (Some [2]) (Some (txt "Inner"))].
Theorem C57_nested_multiplexing_refuted :
  option_map (fun m => map (fun s => (s_name s, s_is_mux s, s_mux_ids s)) (m_signals m)) (kfirst (kthrough (kcd_db nested_message))) =
  Some [(txt "Outer", true, None); (txt "Inner", false, Some [1]); (txt "Inner", true, None); (txt "Leaf", false, Some [2])].
Proof. vm. Qed.
(** Of several multiplexer ids only the first is kept. *)
Theorem C57_multiplexer_ids_refuted : exists s, s_mux_ids s = Some [1; 2] /\
  option_map (fun m => map s_mux_ids (m_signals m)) (kfirst (kthrough (kcd_db (with_muxing [muxing "A" 0 true None None; s])))) = Some [None; Some [1]].
Proof. exists (muxing "B" 8 false (Some [1; 2]) (Some (txt "A"))). split; vm. Qed.
(** A signal with multiplexer ids whose multiplexer is not in the message is dropped. *)
Theorem C57_orphan_refuted : exists s, s_mux_ids s = Some [1] /\ s_mux_signal s = Some (txt "Gone") /\
  option_map m_signals (kfirst (kthrough (kcd_db (with_muxing [s])))) = Some [].
Proof. exists (muxing "B" 8 false (Some [1]) (Some (txt "Gone"))). repeat split; vm. Qed.
(** The bus of a database is replaced. *)
Theorem C57_bus_refuted : exists db, map b_name (db_buses db) = [txt "Body"] /\ match kthrough db with Ok k => map fst (k_buses k) = [txt "Bus"] | Err _ => False end.
Proof. exists (Db None [] [Bus (txt "Body") None None] [] [] [] [] [] [] [] []). split; [reflexivity|vm_compute; reflexivity]. Qed.
(** A receiver that is not a node of the database: nothing is written. *)
Theorem C57_unknown_node_refuted : exists m, m_senders m = [txt "Nobody"] /\ dump_string (fun l => l) (kcd_db m) = Err KeyError.
Proof. exists (DMessage 5 false (txt "M") 8 [txt "Nobody"] None None None [] false false None []). split; vm. Qed.
(** The sign of a float, the initial value of a signal, CAN FD and the send type are lost. *)
Theorem C57_lost_refuted : exists m s, m_fd m = true /\ m_send_type m = Some (txt "Event") /\ m_signals m = [s] /\ s_float s = true /\ s_signed s = true /\ s_initial s = Some (DInt 5) /\
  option_map (fun m => (m_fd m, m_send_type m, map (fun s => (s_float s, s_signed s, s_initial s)) (m_signals m))) (kfirst (kthrough (kcd_db m))) = Some (false, None, [(true, false, None)]).
Proof.
  exists (DMessage 5 false (txt "M") 8 [] (Some (txt "Event")) None None
            [DSignal (txt "S") 0 32 false true (Some (DInt 5)) (DInt 1) (DInt 0) true None None None None None [] false None None None []] false true None []).
  eexists. repeat split; vm.
Qed.

(** ** A message without a length *)
Definition auto_message : xml :=
  elem "Message" (at_ "id" (txt "0x10") ++ at_ "name" (txt "M"))
    [elem "Signal" (at_ "name" (txt "A") ++ at_ "offset" (txt "3") ++ at_ "length" (txt "7")) [];
     elem "Signal" (at_ "name" (txt "B") ++ at_ "offset" (txt "12") ++ at_ "length" (txt "13") ++ at_ "endianess" (txt "big")) []].
Definition loaded (e : xml) : dmessage := match load_message sort_signals [] e with Ok m => m | Err _ => with_muxing [] end.
Example C58_hypotheses : exists m, load_message sort_signals [] auto_message = Ok m /\ attr auto_message "length" = None /\
  (forall s, In s (m_signals m) -> 0 <= s_start s /\ 0 < s_length s) /\ m_length m = 4 /\ map s_start (m_signals m) = [3; 11].
Proof.
  exists (loaded auto_message). split; [vm|]. split; [reflexivity|]. split; [|split; vm].
  assert (F : forallb (fun s => (0 <=? s_start s) && (0 <? s_length s)) (m_signals (loaded auto_message)) = true) by vm.
  rewrite forallb_forall in F. intros s I. specialize (F s I). cbv beta in F. lia.
Qed.
(** With a signal that starts before the frame no length is enough. *)
Definition early_message : xml :=
  elem "Message" (at_ "id" (txt "1") ++ at_ "name" (txt "M")) [elem "Signal" (at_ "name" (txt "A") ++ at_ "offset" (txt "-1") ++ at_ "length" (txt "4")) []].
Theorem C58_negative_offset_refuted : exists e m s, load_message sort_signals [] e = Ok m /\ attr e "length" = None /\ In s (m_signals m) /\ s_length s = 4 /\ m_length m = 1 /\
  forall n, ~ LayoutSpec.sig_fits n (layout s).
Proof.
  pose (s := hd (muxing "A" 0 false None None) (m_signals (loaded early_message))).
  exists early_message, (loaded early_message), s. split; [vm|]. split; [reflexivity|].
  assert (E : m_signals (loaded early_message) = [s]) by (unfold s; vm). split; [rewrite E; now left|].
  assert (L : s_length s = 4) by (unfold s; vm). assert (B : start_bit s = -1) by (unfold s; vm).
  split; [exact L|]. split; [vm|]. intros n H.
  apply (BitsLemmas.sig_fits_iff n (layout s)) in H; [|change (0 < s_length s); lia]. destruct H as [H _]. change (0 <= start_bit s) in H. lia.
Qed.
