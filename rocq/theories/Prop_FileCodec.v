(** Prop_FileCodec: property C78, a database that is stored in a DBC, KCD or SYM file and loaded again encodes and decodes
    its messages as before. *)
From Coq Require Import Ascii Permutation.
From Verif Require Import Base PyNum Conversion Signal Message LayoutSpec CodecSpec DictLemmas CodecThms Alike FileCodec.
From Verif Require DbcDump DbcFit DbcTables DbcLoad DbcSame Prop_Dbc Kcd KcdProofs Prop_Kcd Sym SymProofs Prop_Sym.
Import DbcDump(Floats, F, dsignal, dmessage, database, DInt, DFloat, db_messages).
Import DbcFit(FloatLaws).
Local Open Scope Z_scope.
Local Open Scope list_scope.

Section Stored.
Context {FL : Floats} {LW : FloatLaws FL} (value : F -> float).
Implicit Types (s : dsignal) (m : dmessage) (db : database).

(** What the codec assumes of every message *)
Definition codable m : Prop := 0 <= DbcDump.m_length m /\ NoDup (map DbcDump.s_name (DbcDump.m_signals m)) /\ forall s, In s (DbcDump.m_signals m) -> 0 <= DbcDump.s_start s.
(** [m'] codes as [m] does *)
Definition same_coding m m' : Prop := forall c, codec_message value m = Ok c -> exists c', codec_message value m' = Ok c' /\ codes_alike c c'.

Lemma text_inj a b : text_of a = text_of b -> a = b.
Proof. unfold text_of. intros H. rewrite <- (list_ascii_of_string_of_list_ascii a), <- (list_ascii_of_string_of_list_ascii b). now rewrite H. Qed.
Lemma codec_fields s c : codec_signal value s = Ok c -> s_name c = text_of (DbcDump.s_name s) /\ s_start c = DbcDump.s_start s /\ built_conv (s_conv c) /\ conv_is_float (s_conv c) = DbcDump.s_float s.
Proof.
  unfold codec_signal. intros H. apply bind_ok in H. destruct H as (k & K & H). injection H as <-. cbn [s_name s_start s_conv]. repeat (split; [reflexivity|]). split; [unfold built_conv; eauto|].
  unfold factory in K. apply bind_ok in K. destruct K as (i & I & K). assert (G : match i with CIdent f => f | CLinInt _ _ => false | CLin _ _ f => f end = DbcDump.s_float s).
  { unfold num_factory in I. destruct (_ && _) in I; [injection I as <-; reflexivity|]. destruct (is_integer _ && _ && negb (DbcDump.s_float s)) eqn:E in I.
    - apply bind_ok in I. destruct I as (x & _ & I). apply bind_ok in I. destruct I as (y & _ & I). injection I as <-. apply andb_true_iff in E. destruct E as [_ E]. now destruct (DbcDump.s_float s).
    - injection I as <-. reflexivity. }
  destruct (option_map choices_of (DbcDump.s_choices s)); injection K as <-; cbn; [reflexivity|]. destruct i; exact G.
Qed.
Lemma coding_kept m m' (R : dsignal -> dsignal -> Prop) : codable m ->
  DbcDump.m_id m' = DbcDump.m_id m -> DbcDump.m_extended m' = DbcDump.m_extended m -> DbcDump.m_name m' = DbcDump.m_name m -> DbcDump.m_length m' = DbcDump.m_length m ->
  (exists l, Permutation l (DbcDump.m_signals m) /\ Forall2 R l (DbcDump.m_signals m')) ->
  (forall s s', In s (DbcDump.m_signals m) -> R s s' -> forall c, codec_signal value s = Ok c -> exists c', codec_signal value s' = Ok c' /\ alike c c') -> same_coding m m'.
Proof.
  intros (HL & HN & HS) E1 E2 E3 E4 (l & P & F) G c H. unfold codec_message in *. rewrite E1, E2, E3, E4. apply bind_ok in H. destruct H as (cs & C & H).
  assert (CL : exists cl, mapM (codec_signal value) l = Ok cl /\ Permutation cl cs).
  { apply mapM_ok in C. assert (X : exists cl, Forall2 (fun x y => codec_signal value x = Ok y) l cl /\ Permutation cl cs).
    { destruct (Permutation_Forall2 (Permutation_sym P) C) as (cl & Q & X). exists cl. split; [exact X|now symmetry]. }
    destruct X as (cl & X & Q). exists cl. split; [now apply mapM_ok|exact Q]. }
  destruct CL as (cl & CL & Q).
  assert (CC : exists cs', mapM (codec_signal value) (DbcDump.m_signals m') = Ok cs' /\ Forall2 alike cl cs').
  { apply mapM_ok in CL. assert (IN : forall s, In s l -> In s (DbcDump.m_signals m)) by (intros s; apply Permutation_in, P). clear - F G CL IN.
    revert cl CL. induction F as [|s s' l l' RS F IH]; intros cl CL; inversion CL as [|? c ? cl' Cs CL']; subst; [exists []; split; [reflexivity|constructor]|].
    destruct (G s s' (IN s (or_introl eq_refl)) RS c Cs) as (c' & C' & A). destruct (IH (fun x X => IN x (or_intror X)) cl' CL') as (cs' & CS' & AS). exists (c' :: cs'). cbn. rewrite C'. cbn. rewrite CS'. cbn. split; [reflexivity|now constructor]. }
  destruct CC as (cs' & C' & A). rewrite C'. cbn [bind].
  assert (SI : forall x, In x cs -> exists s, In s (DbcDump.m_signals m) /\ codec_signal value s = Ok x).
  { apply mapM_ok in C. clear - C. induction C as [|s x l cs E C IH]; intros y Y; [destruct Y|]. destruct Y as [<-|Y]; [exists s; split; [now left|exact E]|]. destruct (IH y Y) as (t & T & U). exists t. split; [now right|exact U]. }
  apply (alike_coding _ _ _ _ _ cs cs' c); [exact HL| | | |lia| |exact H].
  - unfold names_unique. assert (N : map s_name cs = map text_of (map DbcDump.s_name (DbcDump.m_signals m))).
    { apply mapM_ok in C. clear - C. induction C as [|s x l cs E C IH]; [reflexivity|]. cbn. rewrite IH. now rewrite (proj1 (codec_fields s x E)). }
    rewrite N. apply FinFun.Injective_map_NoDup; [intros a b; apply text_inj|exact HN].
  - intros x X. destruct (SI x X) as (s & S & E). destruct (codec_fields s x E) as (_ & -> & _). now apply HS.
  - intros x X. destruct (SI x X) as (s & S & E). now destruct (codec_fields s x E) as (_ & _ & B & _).
  - exists cl. now split.
Qed.
(** Signals with the same entries that the codec uses *)
Lemma codec_alike s s' : DbcDump.s_name s' = DbcDump.s_name s -> DbcDump.s_start s' = DbcDump.s_start s -> DbcDump.s_length s' = DbcDump.s_length s -> DbcDump.s_big s' = DbcDump.s_big s ->
  (DbcDump.s_float s = false -> DbcDump.s_signed s' = DbcDump.s_signed s) -> DbcDump.s_float s' = DbcDump.s_float s -> DbcDump.s_scale s' = DbcDump.s_scale s -> DbcDump.s_offset s' = DbcDump.s_offset s ->
  DbcDump.s_choices s' = DbcDump.s_choices s -> DbcDump.s_min s' = DbcDump.s_min s -> DbcDump.s_max s' = DbcDump.s_max s -> DbcDump.s_is_mux s' = DbcDump.s_is_mux s ->
  ids_alike (DbcDump.s_mux_ids s) (DbcDump.s_mux_ids s') -> DbcDump.s_mux_signal s' = DbcDump.s_mux_signal s -> forall c, codec_signal value s = Ok c -> exists c', codec_signal value s' = Ok c' /\ alike c c'.
Proof.
  intros E1 E2 E3 E4 E5 E6 E7 E8 E9 E10 E11 E12 E13 E14 c H. pose proof (codec_fields s c H) as (_ & _ & _ & FL'). unfold codec_signal in *. rewrite E1, E2, E3, E4, E6, E7, E8, E9, E10, E11, E12, E14.
  apply bind_ok in H. destruct H as (k & K & H). rewrite K. cbn [bind]. eexists. split; [reflexivity|]. injection H as <-. cbn [s_conv] in FL'. unfold alike. cbn. repeat (split; [reflexivity|]). split; [intros X; apply E5; congruence|].
  repeat (split; [reflexivity|]). split; [exact E13|reflexivity].
Qed.

(** ** DBC: the limits are given both or not at all, and are not both 0 *)
Definition limits_plain s : Prop :=
  DbcDump.s_min s = None /\ DbcDump.s_max s = None \/
  exists a b, DbcDump.s_min s = Some a /\ DbcDump.s_max s = Some b /\ ~ (a = DInt 0 /\ b = DInt 0).
Theorem C78_dbc shorten set_list db : Prop_Dbc.lists_set set_list -> DbcSame.good db = true ->
  (forall m, In m (db_messages db) -> (forall s, In s (DbcDump.m_signals m) -> 0 <= DbcDump.s_start s /\ limits_plain s)) ->
  exists text db', DbcDump.dump_string shorten db = Ok text /\ DbcLoad.load_string set_list text = Ok db' /\ Forall2 same_coding (db_messages db) (db_messages db').
Proof.
  intros SL G H. destruct (Prop_Dbc.C56_round_trip shorten set_list db SL G) as (text & db' & D & L & S). exists text, db'. split; [exact D|]. split; [exact L|].
  assert (GM : forall m, In m (db_messages db) -> DbcSame.good_message db m = true).
  { unfold DbcSame.good in G. assert (X : DbcSame.good_messages db = true) by (repeat (apply andb_true_iff in G; destruct G as [G ?]); assumption).
    unfold DbcSame.good_messages in X. apply andb_true_iff in X. destruct X as [X _]. apply andb_true_iff in X. destruct X as [X _]. now apply forallb_forall. }
  destruct S as (_ & _ & _ & M & _).
  assert (C : forall m, In m (db_messages db) -> codable m).
  { intros m I. specialize (GM m I). unfold DbcSame.good_message in GM. cbv zeta in GM. repeat (apply andb_true_iff in GM; destruct GM as [GM ?]). split; [lia|]. split; [|intros s J; now apply (H m I s J)].
    apply (DbcFit.nodup_by_spec _ DbcTables.cspec). assumption. }
  revert H C. clear G GM D L. induction M as [|m m' l l' S M IH]; intros H C; constructor; [|apply IH; [intros x X; apply H; now right|intros x X; apply C; now right]].
  destruct S as (S1 & S2 & S3 & S4 & _ & _ & _ & _ & S9 & _). apply (coding_kept m m' (DbcSame.same_signal (DbcDump.db_definitions db'))); try assumption; [apply C; now left|].
  intros s s' I Q. destruct (H m (or_introl eq_refl) s I) as (_ & LP).
  destruct Q as (Q1 & Q2 & Q3 & Q4 & Q5 & _ & Q7 & Q8 & Q9 & Q10 & Q11 & Q12 & _ & _ & _ & Q16 & Q17 & Q18 & _).
  apply codec_alike; try assumption; [intros _; exact Q5| | |].
  - rewrite Q11. unfold DbcSame.read_limit. destruct LP as [(-> & ->)|(a & b & -> & -> & NZ)]; [reflexivity|]. destruct (DbcSame.no_limit (Some a) && DbcSame.no_limit (Some b)) eqn:E; [|reflexivity].
    elim NZ. apply andb_true_iff in E. destruct E as (EA & EB). unfold DbcSame.no_limit in EA, EB. destruct a as [a|], b as [b|]; try discriminate. apply Z.eqb_eq in EA, EB. now subst.
  - rewrite Q12. unfold DbcSame.read_limit. destruct LP as [(-> & ->)|(a & b & -> & -> & NZ)]; [reflexivity|]. destruct (DbcSame.no_limit (Some a) && DbcSame.no_limit (Some b)) eqn:E; [|reflexivity].
    elim NZ. apply andb_true_iff in E. destruct E as (EA & EB). unfold DbcSame.no_limit in EA, EB. destruct a as [a|], b as [b|]; try discriminate. apply Z.eqb_eq in EA, EB. now subst.
  - unfold ids_alike. destruct (DbcDump.s_mux_ids s) as [x|], (DbcDump.s_mux_ids s') as [y|]; auto. destruct Q17 as (_ & Q). intros i. symmetry. apply Q.
Qed.

(** ** KCD and SYM: floats do not stand for the default scale or offset, and value tables are not empty *)
Definition numbers_plain s : Prop :=
  (Kcd.num_is (DbcDump.s_scale s) 1 = true -> DbcDump.s_scale s = DInt 1) /\ (Kcd.num_is (DbcDump.s_offset s) 0 = true -> DbcDump.s_offset s = DInt 0) /\ DbcDump.s_choices s <> Some [].
Lemma ids_refl a : ids_alike a a.
Proof. destruct a; cbn; [reflexivity|exact I]. Qed.
Theorem C78_kcd srt srt' db : Prop_Kcd.orders srt -> Prop_Kcd.orders srt' -> KcdProofs.kcd_fit db = true ->
  (forall m, In m (db_messages db) -> codable m /\ forall s, In s (DbcDump.m_signals m) -> numbers_plain s) ->
  exists text k, Kcd.dump_string srt db = Ok text /\ Kcd.load_string srt' text = Ok k /\ Forall2 same_coding (db_messages db) (map snd (Kcd.k_messages k)).
Proof.
  intros O O' G H. destruct (Prop_Kcd.C57_round_trip srt srt' db O O' G) as (text & k & D & L & _ & _ & _ & M). exists text, k. split; [exact D|]. split; [exact L|].
  clear D L G. induction M as [|m (b & m') l l' (_ & S) M IH]; cbn [map snd]; constructor; [|apply IH; intros x X; apply H; now right].
  cbn [snd] in S. destruct S as (S1 & S2 & S3 & S4 & _ & _ & _ & S8). destruct (H m (or_introl eq_refl)) as (C & NP). apply (coding_kept m m' Prop_Kcd.signal_kept); try assumption.
  intros s s' I (Q1 & Q2 & Q3 & Q4 & Q5 & Q6 & Q7 & Q8 & Q9 & Q10 & Q11 & _ & _ & _ & Q15 & Q16 & Q17). destruct (NP s I) as (N1 & N2 & N3). unfold Prop_Kcd.number_kept in Q7, Q8.
  apply codec_alike; try assumption.
  - destruct (Kcd.num_is (DbcDump.s_scale s) 1); [rewrite (N1 eq_refl); exact Q7|exact Q7].
  - destruct (Kcd.num_is (DbcDump.s_offset s) 0); [rewrite (N2 eq_refl); exact Q8|exact Q8].
  - now apply Q9.
  - rewrite Q16. apply ids_refl.
Qed.
(** ** SYM: multiplexers are unsigned numbers without scaling, names and limits *)
Definition multiplexer_plain s : Prop :=
  DbcDump.s_signed s = false /\ DbcDump.s_float s = false /\ DbcDump.s_scale s = DInt 1 /\ DbcDump.s_offset s = DInt 0 /\ DbcDump.s_choices s = None /\ DbcDump.s_min s = None /\ DbcDump.s_max s = None.
Theorem C78_sym set_list srt srt' db : Prop_Dbc.lists_set set_list -> Prop_Kcd.orders srt -> Prop_Kcd.orders srt' -> SymProofs.sym_fit db ->
  (forall m, In m (db_messages db) -> codable m /\ forall s, In s (DbcDump.m_signals m) -> if DbcDump.s_is_mux s then multiplexer_plain s else numbers_plain s) ->
  exists text db' l, Sym.dump_string set_list srt db = Ok text /\ Sym.load_string srt' text = Ok db' /\ Permutation l (db_messages db) /\ Forall2 same_coding l (db_messages db').
Proof.
  intros SL O O' G H. destruct (Prop_Sym.C61_round_trip set_list SL srt srt' db O O' G) as (text & db' & l & D & L & _ & P & M). exists text, db', l. split; [exact D|]. split; [exact L|]. split; [exact P|].
  assert (HL : forall m, In m l -> codable m /\ forall s, In s (DbcDump.m_signals m) -> if DbcDump.s_is_mux s then multiplexer_plain s else numbers_plain s) by (intros m I; apply H; now apply (Permutation_in _ P)).
  clear D L G H P. induction M as [|m m' l l' S M IH]; constructor; [|apply IH; intros x X; apply HL; now right].
  destruct S as (S1 & S2 & S3 & S4 & _ & _ & _ & S8). destruct (HL m (or_introl eq_refl)) as (C & NP). apply (coding_kept m m' Prop_Sym.kept); try assumption.
  intros s s' I. specialize (NP s I). unfold Prop_Sym.kept. destruct (DbcDump.s_is_mux s) eqn:MX.
  - intros (Q1 & Q2 & Q3 & Q4 & Q5 & Q6 & Q7 & Q8 & Q9 & Q10 & Q11 & Q12 & Q13 & Q14). destruct NP as (N1 & N2 & N3 & N4 & N5 & N6 & N7). apply codec_alike; try congruence. rewrite Q6. apply ids_refl.
  - intros (Q1 & Q2 & Q3 & Q4 & Q5 & Q6 & Q7 & Q8 & Q9 & Q10 & Q11 & _ & _ & _ & Q15 & Q16 & Q17). destruct NP as (N1 & N2 & N3). unfold Prop_Sym.number_kept in Q7, Q8.
    apply codec_alike; try assumption; try congruence; [| |now apply Q9|rewrite Q16; apply ids_refl].
    + destruct (Kcd.num_is (DbcDump.s_scale s) 1); [rewrite (N1 eq_refl); exact Q7|exact Q7].
    + destruct (Kcd.num_is (DbcDump.s_offset s) 0); [rewrite (N2 eq_refl); exact Q8|exact Q8].
Qed.
End Stored.

(** ** A database that meets the conditions of all three formats *)
Import Prop_Dbc(TextFloats, TextLaws).
Import DbcToken(txt).
Import DbcDump(AInt, DSignal, DMessage, Node, Db).
#[local] Existing Instance TextFloats.
#[local] Existing Instance TextLaws.
Definition half (_ : @F TextFloats) : float := SpecFloat.S754_finite false 4503599627370496 (-53).
Definition mode : dsignal := DSignal (txt "Mode") 0 4 false false None (DInt 1) (DInt 0) false None None None None None [] true None None None [].
Definition gear : dsignal :=
  DSignal (txt "Gear") 8 8 false true None (DInt 1) (DInt 0) false (Some [(-1, txt "back"); (1, txt "first")]) None None None None [] false (Some [9]) (Some (txt "Mode")) None [].
Definition speed : dsignal :=
  DSignal (txt "Speed") 15 16 true false None (DFloat (txt "0.5")) (DInt (-3)) false None (Some (DInt 0)) (Some (DInt 250)) (Some (txt "km/h")) None [] false (Some [1]) (Some (txt "Mode")) None [].
Definition status : dmessage := DMessage 0x123 false (txt "Status") 8 [txt "ECU"] None (Some (AInt 100)) None [mode; gear; speed] false false None [].
Definition stored : database := Db None [Node (txt "ECU") None []] [] [status] [] [] [] [] [] [] [].
Example C78_hypotheses : DbcSame.good stored = true /\ KcdProofs.kcd_fit stored = true /\ SymProofs.sym_fit stored /\
  (forall m, In m (db_messages stored) -> codable m /\ forall s, In s (DbcDump.m_signals m) -> limits_plain s /\ numbers_plain s /\ (DbcDump.s_is_mux s = true -> multiplexer_plain s)) /\
  (let* c := codec_message half status in encode c [("Mode", VNum (NInt 9)); ("Gear", VStr "back")]%string true true true) = Ok [0xf9; 0xff; 0xff; 0xff; 0xff; 0xff; 0xff; 0xff].
Proof.
  split; [vm_compute; reflexivity|]. split; [vm_compute; reflexivity|]. split; [|split].
  - constructor.
    + vm_compute. reflexivity.
    + intros m [<-|[]]. right. exists mode. unfold SymProofs.mux_message. split; [now left|]. split; [|split; [reflexivity|split; [reflexivity|split; [reflexivity|split; [discriminate|split; [|split]]]]]].
      * repeat constructor; cbn; intuition discriminate.
      * intros s [<-|[<-|[<-|[]]]]; [now left|right|right]; (split; [reflexivity|split; [reflexivity|]]).
        -- exists 9. split; [reflexivity|]. right. exists 9, 0. lia.
        -- exists 1. split; [reflexivity|]. right. exists 1, 0. lia.
      * intros i [].
      * left. exists speed. split; [right; right; now left|discriminate].
    + intros a b A B. cbn in A, B. intuition (subst; try discriminate; repeat split).
    + intros a b A B. cbn in A, B. destruct A as [<-|[<-|[<-|[]]]], B as [<-|[<-|[<-|[]]]]; cbn; try reflexivity; intros NA NB; now (contradiction NA || contradiction NB).
    + repeat constructor; intros [].
    + intros a b [<-|[]] [<-|[]] _. repeat split.
    + intros a b i [<-|[]] [<-|[]] _ I. exists status. cbn in *. repeat split; [now left|lia].
    + intros a b [<-|[]] [<-|[]] _. now right.
  - intros m [<-|[]]. split.
    + split; [cbn; lia|]. split; [repeat constructor; cbn; intuition discriminate|]. intros s [<-|[<-|[<-|[]]]]; cbn; lia.
    + intros s [<-|[<-|[<-|[]]]]; (split; [|split; [repeat split; try discriminate; reflexivity|intros X; try discriminate X; repeat split]]).
      * now left.
      * now left.
      * right. exists (DInt 0), (DInt 250). repeat split. intros [_ X]. discriminate X.
  - vm_compute. reflexivity.
Qed.

(** ** A limit that is missing is read as 0 from a DBC file, so that values are refused that were accepted before. *)
Definition half_limited : dmessage :=
  DMessage 5 false (txt "M") 1 [] None None None [DSignal (txt "A") 0 8 false true None (DInt 1) (DInt 0) false None None (Some (DInt 5)) None None [] false None None None []] false false None [].
Definition one (m : dmessage) : database := Db None [] [] [m] [] [] [] [] [] [] [].
Definition encoded (m : dmessage) (l : list (string * value)) : result (list Z) := let* c := codec_message half m in encode c l true false true.
Definition through_dbc (m : dmessage) : result (list dmessage) := let* t := DbcDump.dump_string false (one m) in let* db := DbcLoad.load_string (fun l => nodup Z.eq_dec l) t in Ok (db_messages db).
Theorem C78_dbc_limit_refuted : exists m m', DbcSame.good (one m) = true /\ codable m /\ through_dbc m = Ok [m'] /\ ~ same_coding half m m' /\
  encoded m [("A", VNum (NInt (-1)))]%string = Ok [255] /\ encoded m' [("A", VNum (NInt (-1)))]%string = Err EncodeError.
Proof.
  assert (T : exists m', through_dbc half_limited = Ok [m'] /\ encoded half_limited [("A", VNum (NInt (-1)))]%string = Ok [255] /\ encoded m' [("A", VNum (NInt (-1)))]%string = Err EncodeError).
  { assert (X : (let* l := through_dbc half_limited in match l with [m'] => encoded m' [("A", VNum (NInt (-1)))]%string | _ => Ok [] end) = Err EncodeError) by (vm_compute; reflexivity).
    assert (Y : match through_dbc half_limited with Ok [_] => true | _ => false end = true) by (vm_compute; reflexivity).
    destruct (through_dbc half_limited) as [[|m' [|]]|]; try discriminate Y. exists m'. split; [reflexivity|]. split; [vm_compute; reflexivity|exact X]. }
  destruct T as (m' & T & E & E'). exists half_limited, m'. split; [vm_compute; reflexivity|]. split; [split; [cbn; lia|]; split; [repeat constructor; intros []|intros s [<-|[]]; cbn; lia]|]. split; [exact T|].
  split; [|split; assumption]. intros S. unfold encoded in E, E'. destruct (codec_message half half_limited) as [c|] eqn:C; [|discriminate E]. destruct (S c C) as (c' & C' & A). rewrite C' in E'. cbn [bind] in E, E'.
  apply (proj1 A) in E. congruence.
Qed.
(** ** A multiplexer loses its names in a SYM file. *)
Definition named_mux : dmessage :=
  DMessage 5 false (txt "M") 2 [] None None None
    [DSignal (txt "A") 0 8 false false None (DInt 1) (DInt 0) false (Some [(1, txt "on")]) None None None None [] true None None None [];
     DSignal (txt "B") 8 8 false false None (DInt 1) (DInt 0) false None None None None None [] false (Some [1]) (Some (txt "A")) None []] false false None [].
Definition through_sym (m : dmessage) : result (list dmessage) :=
  let* t := Sym.dump_string (fun l => nodup Z.eq_dec l) (fun l => l) (one m) in let* db := Sym.load_string (fun l => l) t in Ok (db_messages db).
Definition named_value : list (string * value) := [("A", VStr "on"); ("B", VNum (NInt 7))]%string.
Theorem C78_sym_names_refuted : exists m m' e, codable m /\ through_sym m = Ok [m'] /\ ~ same_coding half m m' /\
  encoded m named_value = Ok [1; 7] /\ encoded m' named_value = Err e.
Proof.
  assert (T : exists m' e, through_sym named_mux = Ok [m'] /\ encoded named_mux named_value = Ok [1; 7] /\ encoded m' named_value = Err e).
  { assert (Y : match through_sym named_mux with Ok [m'] => match encoded m' named_value with Err _ => true | Ok _ => false end | _ => false end = true) by (vm_compute; reflexivity).
    destruct (through_sym named_mux) as [[|m' [|]]|]; try discriminate Y. destruct (encoded m' named_value) as [|e] eqn:E; [discriminate Y|]. exists m', e. split; [reflexivity|]. split; [vm_compute; reflexivity|exact E]. }
  destruct T as (m' & e & T & E & E'). exists named_mux, m', e. split; [split; [cbn; lia|]; split; [repeat constructor; cbn; intuition discriminate|intros s [<-|[<-|[]]]; cbn; lia]|]. split; [exact T|].
  split; [|split; assumption]. intros S. unfold encoded in E, E'. destruct (codec_message half named_mux) as [c|] eqn:C; [|discriminate E]. destruct (S c C) as (c' & C' & A). rewrite C' in E'. cbn [bind] in E, E'.
  apply (proj1 A) in E. congruence.
Qed.
