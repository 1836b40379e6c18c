(** Alike: messages whose signals agree in what counts for coding are encoded and decoded alike.  Two signals are alike
    if they differ at most in the order of their multiplexer ids and, for floats, in the sign. *)
From Coq Require Import Sorting.Permutation Floats.SpecFloat.
From Verif Require Import Base PyNum Conversion Signal Bitstruct Formats Message LayoutSpec CodecSpec
     DictLemmas BitsLemmas FloatBits FloatRound GenItems NodeProofs CheckSignal TreeProofs MsgProofs
     CheckComplete Construct CodecThms RoundTrip MsgThms Strict Prop_Codec.

Definition ids_alike (a b : option (list Z)) : Prop :=
  match a, b with None, None => True | Some x, Some y => forall i, In i x <-> In i y | _, _ => False end.
Definition alike (s s' : signal) : Prop :=
  s_name s' = s_name s /\ s_start s' = s_start s /\ s_length s' = s_length s /\ s_big s' = s_big s /\
  (conv_is_float (s_conv s) = false -> s_signed s' = s_signed s) /\ s_conv s' = s_conv s /\ s_min s' = s_min s /\ s_max s' = s_max s /\
  s_is_mux s' = s_is_mux s /\ ids_alike (s_mux_ids s) (s_mux_ids s') /\ s_mux_sig s' = s_mux_sig s.
Definition all_alike (l l' : list signal) : Prop := exists p, Permutation p l /\ Forall2 alike p l'.

Lemma ids_sym a b : ids_alike a b -> ids_alike b a.
Proof. destruct a, b; cbn; auto. intros H i. symmetry. apply H. Qed.
Lemma alike_sym s s' : alike s s' -> alike s' s.
Proof.
  intros (A & B & C & D & E & F & G & H & I & J & K). repeat (split; [congruence|]). split; [rewrite F; intros X; symmetry; now apply E|].
  repeat (split; [congruence|]). split; [now apply ids_sym|congruence].
Qed.
Lemma alike_forth l l' s : all_alike l l' -> In s l -> exists s', In s' l' /\ alike s s'.
Proof.
  intros (p & P & F) I. apply (Permutation_in _ (Permutation_sym P)) in I. clear P. induction F as [|x y p l' H F IH]; [destruct I|].
  destruct I as [->|I]; [exists y; split; [now left|exact H]|]. destruct (IH I) as (z & Z1 & Z2). exists z. split; [now right|exact Z2].
Qed.
Lemma alike_back l l' s' : all_alike l l' -> In s' l' -> exists s, In s l /\ alike s s'.
Proof.
  intros (p & P & F) I. assert (G : exists s, In s p /\ alike s s').
  { clear P. induction F as [|x y p l' H F IH]; [destruct I|]. destruct I as [->|I]; [exists x; split; [now left|exact H]|]. destruct (IH I) as (z & Z1 & Z2). exists z. split; [now right|exact Z2]. }
  destruct G as (s & G & H). exists s. split; [now apply (Permutation_in _ P)|exact H].
Qed.
(** What the proofs use of the two lists, in both directions *)
Definition paired (l l' : list signal) : Prop := names_unique l /\ names_unique l' /\
  (forall s, In s l -> exists s', In s' l' /\ alike s s') /\ (forall s', In s' l' -> exists s, In s l /\ alike s s').
Lemma paired_sym l l' : paired l l' -> paired l' l.
Proof.
  intros (A & B & C & D). split; [exact B|]. split; [exact A|]. split.
  - intros s I. destruct (D s I) as (x & X & Y). exists x. split; [exact X|now apply alike_sym].
  - intros s I. destruct (C s I) as (x & X & Y). exists x. split; [exact X|now apply alike_sym].
Qed.
Lemma names_alike l l' : all_alike l l' -> Permutation (map s_name l) (map s_name l').
Proof.
  intros (p & P & F). rewrite <- (Permutation_map s_name P). assert (E : map s_name p = map s_name l'); [|now rewrite E].
  clear P. induction F as [|x y p l' (H & _) F IH]; [reflexivity|]. cbn. now rewrite H, IH.
Qed.
Lemma all_paired l l' : names_unique l -> all_alike l l' -> paired l l'.
Proof.
  intros U A. split; [exact U|]. split; [exact (Permutation_NoDup (names_alike _ _ A) U)|]. split; intros s; [now apply alike_forth|now apply alike_back].
Qed.

Lemma alike_active l l' mv s s' : paired l l' -> active l mv s -> In s' l' -> alike s s' -> active l' mv s'.
Proof.
  intros P A. revert s'. induction A as [s I N|s p v ids I N A IH M V D E]; intros s' I' (A1 & _ & _ & _ & _ & _ & _ & _ & A9 & A10 & A11).
  - apply active_root; [exact I'|congruence].
  - destruct P as (U & U' & F & B). destruct (F p) as (p' & P1 & P2); [now apply active_in in A|]. pose proof P2 as (B1 & _ & _ & _ & _ & _ & _ & _ & B9 & _).
    rewrite D in A10. destruct (s_mux_ids s') as [ids'|] eqn:D'; [|destruct A10]. apply (active_child l' mv s' p' v ids'); [exact I'|congruence|now apply IH|congruence|congruence|exact D'|now apply A10].
Qed.
Lemma alike_find l l' n s : paired l l' -> find_signal l n = Some s -> exists s', find_signal l' n = Some s' /\ alike s s'.
Proof.
  intros (U & U' & F & _) E. apply find_signal_some in E. destruct E as (I & <-). destruct (F s I) as (s' & I' & A). exists s'. split; [|exact A].
  destruct A as (<- & _). now apply find_signal_in.
Qed.
Lemma alike_selectors l l' d n : paired l l' -> selectors l' d n = selectors l d n.
Proof.
  intros P. unfold selectors. destruct (find_signal l n) as [s|] eqn:E.
  - destruct (alike_find l l' n s P E) as (s' & -> & A). destruct (sget d n); [|reflexivity]. unfold selector. destruct A as (_ & _ & _ & _ & _ & -> & _). reflexivity.
  - destruct (find_signal l' n) as [s'|] eqn:E'; [|reflexivity]. destruct (alike_find l' l n s' (paired_sym _ _ P) E') as (s & X & _). congruence.
Qed.
Lemma alike_selected l l' d s s' : paired l l' -> active l (selectors l d) s -> In s' l' -> alike s s' -> active l' (selectors l' d) s'.
Proof.
  intros P A I H. assert (A' := alike_active l l' _ s s' P A I H). refine (proj1 (active_ext2 l' _ _ s' _) A'). intros t _. symmetry. now apply (alike_selectors l l' d _ P).
Qed.
Lemma alike_known l l' s s' i : paired l l' -> alike s s' -> known_id l s i -> known_id l' s' i.
Proof.
  intros (_ & _ & F & _) A [(c & ids & I & M & D & E)|(ch & C & E)].
  - left. destruct (F c I) as (c' & I' & B). pose proof B as (_ & _ & _ & _ & _ & _ & _ & _ & _ & B10 & B11). destruct A as (A1 & _). rewrite D in B10. destruct (s_mux_ids c') as [ids'|] eqn:D'; [|destruct B10].
    exists c', ids'. split; [exact I'|]. split; [congruence|]. split; [exact D'|now apply B10].
  - right. exists ch. destruct A as (_ & _ & _ & _ & _ & -> & _). now split.
Qed.
Lemma alike_selector_known l l' d s s' : paired l l' -> alike s s' -> selector_known l (selectors l d) s -> selector_known l' (selectors l' d) s'.
Proof.
  intros P A K M (i & I). pose proof (alike_sym _ _ A) as A'. pose proof A as (A1 & _ & _ & _ & _ & _ & _ & _ & A9 & _). destruct K as (v & V & W); [congruence|exists i; now apply (alike_known l' l s' s _ (paired_sym _ _ P))|].
  exists v. split; [rewrite (alike_selectors l l' d _ P); congruence|now apply (alike_known l l' s s')].
Qed.
Lemma alike_bit s s' k : alike s s' -> bit_pos s' k = bit_pos s k.
Proof. intros (_ & B & C & D & _). unfold bit_pos. now rewrite B, C, D. Qed.
Lemma alike_occupies s s' b : alike s s' -> occupies s b <-> occupies s' b.
Proof. intros A. unfold occupies. pose proof A as (_ & _ & C & _). split; intros (k & K & E); exists k; rewrite (alike_bit s s' k A) in *; rewrite C in *; auto. Qed.
Lemma alike_within s s' n : alike s s' -> sig_within n s -> sig_within n s'.
Proof. intros A W b O. apply W. now apply (alike_occupies s s' b A). Qed.
Lemma alike_raw_bits s s' raw x : alike s s' -> raw_bits s raw x -> raw_bits s' raw x.
Proof.
  intros (_ & _ & C & _ & E & F & _). unfold raw_bits, int_fits. rewrite F, C. destruct (conv_is_float (s_conv s)); [auto|]. now rewrite E.
Qed.
Lemma digits_ext f g n : (forall k, f k = g k) -> digits f n = digits g n.
Proof. intros H. induction n as [|n IH]; cbn; [reflexivity|]. now rewrite IH, H. Qed.
Lemma alike_read data s s' : alike s s' -> read_raw data s' = read_raw data s.
Proof.
  intros A. pose proof A as (_ & _ & C & _ & E & F & _). unfold read_raw, read_int. rewrite F, C, (alike_bit s s' _ A).
  rewrite (digits_ext (fun k => payload_bit data (bit_pos s' k)) (fun k => payload_bit data (bit_pos s k))) by (intros k; now rewrite (alike_bit s s' k A)).
  destruct (conv_is_float (s_conv s)); [reflexivity|]. now rewrite E.
Qed.

Definition alike_messages (m m' : message) : Prop := paired (m_signals m) (m_signals m') /\ m_length m = m_length m' /\ m_unused m = m_unused m'.
Lemma alike_messages_sym m m' : alike_messages m m' -> alike_messages m' m.
Proof. intros (P & L & U). split; [now apply paired_sym|auto]. Qed.
Lemma frame_for_alike m m' d sc pad b : alike_messages m m' -> frame_for m d sc pad b -> frame_for m' d sc pad b.
Proof.
  intros (P & L & U) [F1 F2 F3 F4 F5].
  assert (BK : forall s', active (m_signals m') (selectors (m_signals m') d) s' -> exists s, active (m_signals m) (selectors (m_signals m) d) s /\ alike s s').
  { intros s' H. destruct (proj2 (proj2 (proj2 P)) s') as (s & I & A); [now apply active_in in H|]. exists s. split; [|exact A]. apply (alike_selected _ _ d s' s (paired_sym _ _ P) H I). now apply alike_sym. }
  split; rewrite <- ?L, <- ?U; auto.
  - intros s' H. destruct (BK s' H) as (s & H1 & A). apply (alike_selector_known (m_signals m) _ d s s' P A). now apply F3.
  - intros s' H. destruct (BK s' H) as (s & H1 & A). destruct (F4 s H1) as (v & raw & x & V1 & V2 & V3 & V4). pose proof A as (A1 & _ & A3 & _ & _ & A6 & _).
    exists v, raw, x. split; [congruence|]. split; [revert V2; unfold raw_value; now rewrite A6|]. split; [now apply (alike_raw_bits s)|]. intros k K. rewrite (alike_bit s s' k A). apply V4. now rewrite <- A3.
  - intros b0 Hb HN. apply F5; [assumption|]. intros s H O. destruct (proj1 (proj2 (proj2 P)) s) as (s' & I & A); [now apply active_in in H|]. apply (HN s'); [now apply (alike_selected (m_signals m) _ d s s')|now apply (alike_occupies s)].
Qed.
Lemma decoded_alike m m' data dc sc out : alike_messages m m' -> decoded m data dc sc out -> decoded m' data dc sc out.
Proof.
  intros (P & L & U) [D1 D2 D3 D4].
  assert (BK : forall s', active (m_signals m') (selectors (m_signals m') out) s' -> exists s, active (m_signals m) (selectors (m_signals m) out) s /\ alike s s').
  { intros s' H. destruct (proj2 (proj2 (proj2 P)) s') as (s & I & A); [now apply active_in in H|]. exists s. split; [|exact A]. apply (alike_selected _ _ out s' s (paired_sym _ _ P) H I). now apply alike_sym. }
  split; auto.
  - intros s' H W. destruct (BK s' H) as (s & H1 & A). destruct (D2 s H1) as (v & V1 & V2); [apply (alike_within s' s); [now apply alike_sym|exact W]|]. pose proof A as (A1 & _ & _ & _ & _ & A6 & _).
    exists v. split; [congruence|]. rewrite (alike_read data s s' A). revert V2. unfold shown_value. now rewrite A6.
  - intros k v Hk. destruct (D3 k v Hk) as (s & S1 & S2 & S3). destruct (proj1 (proj2 (proj2 P)) s) as (s' & I & A); [now apply active_in in S1|]. exists s'. pose proof A as (A1 & _).
    split; [now apply (alike_selected (m_signals m) _ out s s')|]. split; [now apply (alike_within s s')|congruence].
  - intros s' H W. destruct (BK s' H) as (s & H1 & A). apply (alike_selector_known (m_signals m) _ out s s' P A). apply D4; [exact H1|]. apply (alike_within s' s); [now apply alike_sym|exact W].
Qed.

Section Coding.
  Variables m m' : message.
  Hypothesis OK : msg_ok m.
  Hypothesis OK' : msg_ok m'.
  Hypothesis BC : forall s, In s (m_signals m) -> built_conv (s_conv s).
  Hypothesis SS : alike_messages m m'.
  Lemma alike_built : forall s, In s (m_signals m') -> built_conv (s_conv s).
  Proof. intros s' I. destruct (proj2 (proj2 (proj2 (proj1 SS))) s' I) as (s & J & A). destruct A as (_ & _ & _ & _ & _ & -> & _). now apply BC. Qed.
  Lemma encode_alike d sc pad b : (pad = true -> 0 <= m_unused m < 256) -> encode m d sc pad false = Ok b -> encode m' d sc pad false = Ok b.
  Proof.
    intros HP H. assert (F := encode_frame m OK BC _ _ _ _ _ H). assert (F' := frame_for_alike _ _ _ _ _ _ SS F).
    destruct (encode_complete m' OK' alike_built d sc pad) as [b' Hb'].
    - destruct SS as (_ & _ & <-). assumption.
    - apply F'.
    - intros s A. destruct (ff_bits _ _ _ _ _ F' s A) as (v & raw & x & V1 & V2 & V3 & _). eauto 8.
    - assert (F2 := encode_frame m' OK' alike_built _ _ _ _ _ Hb'). rewrite Hb'. f_equal. now apply (frame_for_unique m' d sc pad).
  Qed.
  Lemma strict_encode_alike d sc pad b : (pad = true -> 0 <= m_unused m < 256) -> encode m d sc pad true = Ok b -> encode m' d sc pad true = Ok b.
  Proof.
    intros HP H. apply (strict_encode_iff m d sc pad b OK BC) in H. destruct H as (H1 & H2 & H3). apply (strict_encode_iff m' d sc pad b OK' alike_built).
    pose proof (proj1 SS) as P. split; [now apply encode_alike|]. split.
    - intros k. rewrite H2. split; intros (s & A & E).
      + destruct (proj1 (proj2 (proj2 P)) s) as (s' & I & L); [now apply active_in in A|]. exists s'. split; [now apply (alike_selected (m_signals m) _ d s s')|]. destruct L as (L & _). congruence.
      + destruct (proj2 (proj2 (proj2 P)) s) as (s' & I & L); [now apply active_in in A|]. exists s'. split; [apply (alike_selected (m_signals m') _ d s s' (paired_sym _ _ P) A I); now apply alike_sym|]. destruct L as (L & _). congruence.
    - intros s v A E. destruct (proj2 (proj2 (proj2 P)) s) as (s' & I & L); [now apply active_in in A|]. pose proof L as (L1 & _ & _ & _ & _ & L6 & L7 & L8 & _).
      assert (V : value_allowed s' sc v) by (apply H3; [apply (alike_selected (m_signals m') _ d s s' (paired_sym _ _ P) A I); now apply alike_sym|congruence]).
      revert V. unfold value_allowed, in_table, in_range. now rewrite L6, L7, L8.
  Qed.
  Lemma decode_alike data dc sc at_ ae out : (dc = true -> sc = true -> plain_tables m) -> bytes_ok data -> decode m data dc sc at_ ae = Ok out ->
    exists out', decode m' data dc sc at_ ae = Ok out' /\ forall k, sget out k = sget out' k.
  Proof.
    intros PT BO H. destruct (decode_spec m OK BC dc sc PT data at_ ae out BO H) as (D & L1 & L2). assert (D' := decoded_alike _ _ _ _ _ _ SS D).
    assert (PT' : dc = true -> sc = true -> plain_tables m').
    { intros E1 E2 s' I. destruct (proj2 (proj2 (proj2 (proj1 SS))) s' I) as (s & J & A). destruct A as (_ & _ & _ & _ & _ & -> & _). now apply (PT E1 E2). }
    destruct (decode_complete m' OK' alike_built dc sc PT' data at_ ae out BO) as [out' HO]; auto.
    - destruct SS as (_ & <- & _). assumption.
    - destruct SS as (_ & <- & _). assumption.
    - exists out'. split; [assumption|]. destruct (decode_spec m' OK' alike_built dc sc PT' data at_ ae out' BO HO) as (D2 & _). now apply (decoded_unique m' data dc sc).
  Qed.
End Coding.

(** Two messages that code alike *)
Definition codes_alike (m m' : message) : Prop :=
  (forall d scaling padding strict bytes, encode m d scaling padding strict = Ok bytes <-> encode m' d scaling padding strict = Ok bytes) /\
  (forall data decode_choices scaling allow_truncated allow_excess, (decode_choices = true -> scaling = true -> plain_tables m) -> bytes_ok data ->
     (forall out, decode m data decode_choices scaling allow_truncated allow_excess = Ok out ->
        exists out', decode m' data decode_choices scaling allow_truncated allow_excess = Ok out' /\ forall k, sget out k = sget out' k) /\
     (forall out', decode m' data decode_choices scaling allow_truncated allow_excess = Ok out' ->
        exists out, decode m data decode_choices scaling allow_truncated allow_excess = Ok out /\ forall k, sget out k = sget out' k)).
Theorem alike_coding fid ext name len unused sigs sigs' m : 0 <= len -> names_unique sigs -> (forall s, In s sigs -> 0 <= s_start s) ->
  (forall s, In s sigs -> built_conv (s_conv s)) -> 0 <= unused < 256 -> all_alike sigs sigs' ->
  mk_message fid ext name len unused sigs true SortDefault = Ok m -> exists m', mk_message fid ext name len unused sigs' true SortDefault = Ok m' /\ codes_alike m m'.
Proof.
  intros HL HN HS HB HU HP H. assert (PP := all_paired _ _ HN HP). pose proof PP as (_ & HN' & FO & BK).
  assert (HS' : forall s, In s sigs' -> 0 <= s_start s) by (intros s' I; destruct (BK s' I) as (s & J & A); destruct A as (_ & -> & _); now apply HS).
  assert (HB' : forall s, In s sigs' -> built_conv (s_conv s)) by (intros s' I; destruct (BK s' I) as (s & J & A); destruct A as (_ & _ & _ & _ & _ & -> & _); now apply HB).
  assert (ACT : forall mv s', active sigs' mv s' -> exists s, active sigs mv s /\ alike s s').
  { intros mv s' A. destruct (BK s') as (s & I & L); [now apply active_in in A|]. exists s. split; [|exact L]. apply (alike_active sigs' sigs mv s' s (paired_sym _ _ PP) A I). now apply alike_sym. }
  assert (EX : exists m', mk_message fid ext name len unused sigs' true SortDefault = Ok m').
  { apply mk_message_iff; auto. destruct (proj1 (mk_message_iff fid ext name len unused sigs HL HN HS)) as (Q1 & Q2 & Q3 & Q4); [eauto|]. split; [assumption|]. split; [|split].
    - intros s' I. destruct (BK s' I) as (s & J & A). destruct A as (_ & _ & -> & _). now apply Q2.
    - intros mv s' A F. destruct (ACT mv s' A) as (s & B & L). pose proof L as (_ & _ & L3 & _ & _ & L6 & _). rewrite L3. apply (Q3 mv s B). congruence.
    - intros mv s' A. destruct (ACT mv s' A) as (s & B & L). destruct (Q4 mv s B) as (F & D). split; [intros b O; apply F; now apply (alike_occupies s s' b L)|].
      intros t' T N b O1 O2. destruct (ACT mv t' T) as (t & T2 & LT). apply (D t T2) with b; [|now apply (alike_occupies s s')|now apply (alike_occupies t t')].
      intros ->. apply N. destruct L as (L1 & _), LT as (M1 & _). assert (X : find_signal sigs' (s_name s') = Some s') by (apply find_signal_in; [exact HN'|now apply active_in in A]).
      assert (Y : find_signal sigs' (s_name t') = Some t') by (apply find_signal_in; [exact HN'|now apply active_in in T]). congruence. }
  destruct EX as [m' H']. exists m'. split; [exact H'|].
  assert (SM : strict_message m) by (exists fid, ext, name, len, unused, sigs; auto 10). assert (SM' : strict_message m') by (exists fid, ext, name, len, unused, sigs'; auto 10).
  destruct (strict_message_ok m SM) as [OK BC]. destruct (strict_message_ok m' SM') as [OK' BC'].
  destruct (mk_message_basic _ _ _ _ _ _ _ _ _ H) as (_ & E1 & E2 & E3 & _). destruct (mk_message_basic _ _ _ _ _ _ _ _ _ H') as (_ & E1' & E2' & E3' & _).
  assert (SS : alike_messages m m').
  { split; [|split; congruence]. rewrite E1, E1'. cbn [apply_sort]. pose proof (sort_default_perm sigs) as P1. pose proof (sort_default_perm sigs') as P2.
    split; [exact (Permutation_NoDup (Permutation_map s_name (Permutation_sym P1)) HN)|]. split; [exact (Permutation_NoDup (Permutation_map s_name (Permutation_sym P2)) HN')|]. split.
    - intros s I. destruct (FO s) as (s' & J & A); [now apply (Permutation_in _ P1)|]. exists s'. split; [now apply (Permutation_in _ (Permutation_sym P2))|exact A].
    - intros s I. destruct (BK s) as (s' & J & A); [now apply (Permutation_in _ P2)|]. exists s'. split; [now apply (Permutation_in _ (Permutation_sym P1))|exact A]. }
  assert (SS' := alike_messages_sym _ _ SS). split.
  - intros d sc pad st b. destruct st; split; intros E.
    + apply (strict_encode_alike m m'); auto. intros _. now rewrite E3.
    + apply (strict_encode_alike m' m); auto. intros _. now rewrite E3'.
    + apply (encode_alike m m'); auto. intros _. now rewrite E3.
    + apply (encode_alike m' m); auto. intros _. now rewrite E3'.
  - intros data dc sc at_ ae PT BO. split; intros out E; [now apply (decode_alike m m' OK OK' BC SS)|].
    assert (PT' : dc = true -> sc = true -> plain_tables m').
    { intros X1 X2 s' I. destruct (proj2 (proj2 (proj2 (proj1 SS))) s' I) as (s & J & A). destruct A as (_ & _ & _ & _ & _ & -> & _). now apply (PT X1 X2). }
    destruct (decode_alike m' m OK' OK BC' SS' data dc sc at_ ae out PT' BO E) as (o & O & G). exists o. split; [exact O|]. intros k. symmetry. apply G.
Qed.
