(** SymFile: the messages of a whole file. *)
From Coq Require Import Ascii Permutation Sorting.Sorted.
From Verif Require Import Base CSource CNames DictLemmas Regex DecText DbcToken DbcLex DbcStmt DbcPieces DbcDump DbcLoad DbcTables DbcFit DbcWrite Logreader LogSpec LogProofs Draw DrawProofs.
From Verif Require Kcd KcdProofs.
From Verif Require Import SymToken SymStmt Sym SymRows SymProofs SymMessages.
Local Open Scope string_scope.
Local Open Scope Z_scope.
Local Open Scope list_scope.

Section File.
Context {FL : Floats} {LW : FloatLaws FL}.
Context (set_list : list Z -> list Z) (SETS : forall l, NoDup (set_list l) /\ forall x, In x (set_list l) <-> In x l).
Context (srt srt' : list dsignal -> list dsignal) (SRT : forall l, Permutation (srt l) l).
Implicit Types (m : dmessage) (g : list dmessage) (db : database).

(** ** Messages of the same name *)
Lemma chars_leb_antisym a : forall b, chars_leb a b = true -> chars_leb b a = true -> a = b.
Proof.
  induction a as [|x a IH]; intros [|y b] H1 H2; try discriminate; [reflexivity|]. cbn [chars_leb] in *. rewrite (Ascii.eqb_sym y x) in H2. destruct (Ascii.eqb_spec x y) as [->|N]; [f_equal; now apply IH|].
  apply Nat.ltb_lt in H1. apply Nat.ltb_lt in H2. lia.
Qed.
Lemma leb_refl a : chars_leb a a = true.
Proof. induction a as [|x a IH]; [reflexivity|]. cbn [chars_leb]. now rewrite Ascii.eqb_refl. Qed.
Lemma NoDup_map_eq_ {A B} (f : A -> B) l : NoDup (map f l) -> forall a b, In a l -> In b l -> f a = f b -> a = b.
Proof.
  induction l as [|x l IH]; intros N a b I J E; [contradiction|]. cbn [map] in N. inversion N as [|? ? NI N']; subst. destruct I as [->|I], J as [->|J]; auto.
  - exfalso. apply NI. rewrite E. now apply in_map.
  - exfalso. apply NI. rewrite <- E. now apply in_map.
Qed.
Lemma zrange_len_ n : forall a, List.length (zrange_from a n) = n.
Proof. induction n as [|n IH]; intros a; [reflexivity|]. cbn. now rewrite IH. Qed.
Lemma nodup_app_r_ {A} (a b : list A) : NoDup (a ++ b) -> NoDup b.
Proof. induction a as [|x a IH]; [auto|]. intros H. inversion H. auto. Qed.
Lemma nodup_app_l_ {A} (a b : list A) : NoDup (a ++ b) -> NoDup a.
Proof. induction a as [|x a IH]; intros H; [constructor|]. inversion H as [|? ? NI N]; subst. constructor; [|auto]. intros I. apply NI, in_app_iff. now left. Qed.
Lemma mapM_app_ {A B} (f : A -> result B) a : forall b, mapM f (a ++ b) = let* x := mapM f a in let* y := mapM f b in Ok (x ++ y).
Proof.
  induction a as [|x a IH]; intros b; cbn [app mapM bind]; [now destruct (mapM f b)|]. destruct (f x); [|reflexivity]. cbn [bind]. rewrite IH. destruct (mapM f a); [|reflexivity]. cbn [bind]. now destruct (mapM f b).
Qed.
Lemma rows_send f : symbol_rows "{SEND}" (sections_of f) = f_send f.
Proof. destruct f as [[|] [|] [|] [|] [|]]; cbn; now rewrite ?app_nil_r. Qed.
Lemma rows_receive f : symbol_rows "{RECEIVE}" (sections_of f) = f_receive f.
Proof. destruct f as [[|] [|] [|] [|] [|]]; cbn; now rewrite ?app_nil_r. Qed.
Lemma rows_both f : symbol_rows "{SENDRECEIVE}" (sections_of f) = f_both f.
Proof. destruct f as [[|] [|] [|] [|] [|]]; cbn; now rewrite ?app_nil_r. Qed.
Lemma rows_enums f : enum_rows (sections_of f) = f_enums f.
Proof. destruct f as [[|] [|] [|] [|] [|]]; cbn; now rewrite ?app_nil_r. Qed.
Lemma rows_signals f : signal_rows (sections_of f) = f_signals f.
Proof. destruct f as [[|] [|] [|] [|] [|]]; cbn; now rewrite ?app_nil_r. Qed.
Definition flat (l : list (list dmessage)) : list dmessage := flat_map (fun g => g) l.
Lemma groups_ne l g : In g (groups l) -> g <> [].
Proof.
  revert g. induction l as [|m r IH]; intros g I; [contradiction|]. cbn [groups] in I. destruct (groups r) as [|[|x h] gs]; cbn [In] in I.
  - destruct I as [<-|[]]. discriminate.
  - destruct I as [<-|I]; [discriminate|]. apply IH. exact I.
  - destruct (chars_eqb _ _); cbn [In] in I; [destruct I as [<-|I]; [discriminate|apply IH; now right]|destruct I as [<-|I]; [discriminate|apply IH; exact I]].
Qed.
Lemma groups_flat l : flat (groups l) = l.
Proof.
  induction l as [|m r IH]; [reflexivity|]. cbn [groups]. destruct (groups r) as [|[|x h] gs] eqn:E.
  - cbn in *. now rewrite <- IH.
  - unfold flat in *. cbn [flat_map app] in *. now rewrite IH.
  - unfold flat in *. cbn [flat_map] in IH. destruct (chars_eqb _ _); cbn [flat_map app] in *; now rewrite <- IH.
Qed.
Lemma groups_name l g a b : In g (groups l) -> In a g -> In b g -> m_name a = m_name b.
Proof.
  revert g a b. induction l as [|m r IH]; intros g a b I A B; [contradiction|]. cbn [groups] in I. destruct (groups r) as [|[|x h] gs] eqn:E; cbn [In] in I.
  - destruct I as [<-|[]]. destruct A as [<-|[]], B as [<-|[]]. reflexivity.
  - destruct I as [<-|I]; [|now apply (IH g)]. destruct A as [<-|[]], B as [<-|[]]. reflexivity.
  - destruct (chars_eqb (m_name m) (m_name x)) eqn:N; cbn [In] in I.
    + apply chars_eqb_eq in N. destruct I as [<-|I]; [|apply (IH g); auto; now right].
      assert (X : forall c, In c (m :: x :: h) -> m_name c = m_name x) by (intros c [<-|C]; [exact N|]; apply (IH (x :: h)); [now left|exact C|now left]).
      rewrite (X a A), (X b B). reflexivity.
    + destruct I as [<-|I]; [|now apply (IH g)]. destruct A as [<-|[]], B as [<-|[]]. reflexivity.
Qed.
Definition apart (g h : list dmessage) : Prop := forall a b, In a g -> In b h -> m_name a <> m_name b.
Lemma groups_apart l : StronglySorted (fun a b => by_name a b = true) l -> ForallOrdPairs apart (groups l).
Proof.
  induction l as [|m r IH]; intros S; [constructor|]. inversion S as [|? ? S' F]; subst. specialize (IH S'). cbn [groups]. pose proof (groups_flat r) as GF. destruct (groups r) as [|[|x h] gs] eqn:E.
  - repeat constructor.
  - exfalso. apply (groups_ne r []); [rewrite E; now left|reflexivity].
  - assert (NM : forall c, In c (x :: h) -> m_name c = m_name x) by (intros c C; apply (groups_name r (x :: h)); [rewrite E; now left|exact C|now left]).
    assert (F1 : Forall (apart (x :: h)) gs) by (inversion IH; assumption). assert (F2 : ForallOrdPairs apart gs) by (inversion IH; assumption). destruct (chars_eqb (m_name m) (m_name x)) eqn:N.
    + apply chars_eqb_eq in N. constructor; [|exact F2]. rewrite Forall_forall in *. intros k K a b A B. destruct A as [<-|A]; [rewrite N; apply (F1 k K x b); [now left|exact B]|now apply (F1 k K a b)].
    + constructor; [|exact IH]. rewrite Forall_forall. intros k K a b [<-|[]] B EN.
      assert (NX : m_name m <> m_name x) by (intros X; rewrite X, chars_eqb_refl in N; discriminate). apply NX.
      assert (IR : In b (x :: h ++ flat gs)). { change (In b (flat ((x :: h) :: gs))). unfold flat. apply in_flat_map. eauto. }
      assert (RR : In x r) by (rewrite <- GF; unfold flat; cbn [flat_map]; apply in_app_iff; left; now left).
      apply chars_leb_antisym; [rewrite Forall_forall in F; apply (F x RR)|].
      rewrite <- GF in S'. unfold flat in S'. cbn [flat_map app] in S'. rewrite EN. destruct IR as [<-|IR]; [apply leb_refl|].
      assert (F3 := proj2 (StronglySorted_inv S')). rewrite Forall_forall in F3. apply F3. exact IR.
Qed.

(** ** The symbols of the messages of one name *)
Section Groups.
Context (db : database) (FIT : sym_fit db).
Context (signals : sig_dict) (enums : enum_dict) (ROWS : forall s, In s (signals_of db) -> cget signals (signal_name s) = Some (base s)).
Lemma message_fit m : In m (db_messages db) -> sym_message m = true.
Proof. intros I. pose proof (fit_messages db FIT) as F. rewrite forallb_forall in F. now apply F. Qed.
Lemma message_rows m : In m (db_messages db) -> forall s, In s (m_signals m) -> has_row signals s.
Proof.
  intros I s S. assert (IS : In s (signals_of db)) by (unfold signals_of; apply in_flat_map; eauto). split; [now apply (signal_fit db FIT)|now apply ROWS].
Qed.
Lemma message_bound m : In m (db_messages db) -> 0 <= m_id m < id_bound m.
Proof. intros I. pose proof (message_fit m I) as H. unfold sym_message in H. sb H. apply Z.leb_le in H4. apply Z.ltb_lt in H3. unfold id_bound. lia. Qed.
(** The signals of a message as they are read *)
Definition read_signals m (sigs : list dsignal) : Prop :=
  (plain_message m /\ sigs = map view_signal (m_signals m)) \/ exists x, mux_message m x /\ sigs = view_mux x :: map view_signal (mux_order set_list m x).
Definition seen m (m' : dmessage) : Prop := exists sigs, read_signals m sigs /\ m' = loaded srt' (section_of m) m sigs (m_id m).
Lemma senders_section m : section_senders (section_of m) = view_senders (m_senders m).
Proof.
  unfold section_of, view_senders. destruct (m_senders m) as [|n [|]]; try reflexivity. destruct (chars_eqb n (txt "ECU")) eqn:A; [apply chars_eqb_eq in A; subst; reflexivity|].
  destruct (chars_eqb n (txt "Peripherals")) eqn:B; [apply chars_eqb_eq in B; subst; reflexivity|reflexivity].
Qed.
Definition written g (p : string * list symbol) : Prop :=
  (forall m, In m g -> fst p = section_of m) /\ (forall b m, In b (snd p) -> In m g -> sy_name b = m_name m) /\ forallb symbol_ok (snd p) = true /\
  forall pre post, (forall b m, In b (pre ++ post) -> In m g -> sy_name b <> m_name m) ->
    exists r l0, mapM (load_symbol srt' (fst p) (pre ++ snd p ++ post) signals enums) (snd p) = Ok r /\ Permutation g l0 /\ Forall2 seen l0 (List.concat r).
Lemma zrange_one a : zrange a (a + 1) = [a].
Proof. unfold zrange. replace (a + 1 - a) with 1 by lia. reflexivity. Qed.
Lemma in_zrange_from a n i : In i (zrange_from a n) <-> a <= i < a + Z.of_nat n.
Proof. revert a. induction n as [|n IH]; intros a; cbn [zrange_from In]; [lia|]. rewrite IH. lia. Qed.
Lemma nodup_zrange_from a n : NoDup (zrange_from a n).
Proof. revert a. induction n as [|n IH]; intros a; cbn [zrange_from]; constructor; [rewrite in_zrange_from; lia|apply IH]. Qed.
Lemma single_written m : In m (db_messages db) -> exists p, group_symbols set_list [m] = Ok p /\ written [m] p.
Proof.
  intros I. pose proof (message_fit m I) as H. pose proof (message_bound m I) as B. pose proof (message_rows m I) as R. cbn [group_symbols].
  destruct (fit_muxes db FIT m I) as [P|(x & M)].
  - rewrite plain_symbols by exact P. cbn [bind]. eexists. split; [reflexivity|]. unfold written. cbn [fst snd]. repeat split.
    + intros m' [<-|[]]. reflexivity.
    + intros b m' [<-|[]] [<-|[]]. reflexivity.
    + cbn [forallb]. rewrite andb_true_r. apply block_ok; [exact H|apply incl_refl|intros i [E|E]; [injection E as <-; exact B|discriminate E]|intros E; discriminate E|intros e []].
    + intros pre post N. cbn [mapM]. rewrite (plain_load srt' (section_of m)) by (auto; discriminate). cbn [bind]. rewrite zrange_one. cbn [map]. eexists. exists [m]. split; [reflexivity|]. split; [reflexivity|]. cbn [List.concat app].
      constructor; [|constructor]. eexists. split; [left; split; [exact P|reflexivity]|reflexivity].
  - rewrite (muxed_symbols set_list SETS m x M). cbn [bind]. eexists. split; [reflexivity|]. unfold written. cbn [fst snd]. pose proof (ids_some set_list SETS m x M) as NE. destruct (mux_ids set_list m x) as [|i r] eqn:EI; [congruence|]. repeat split.
    + intros m' [<-|[]]. reflexivity.
    + intros b m' [<-|J] [<-|[]]; [reflexivity|]. apply in_map_iff in J. destruct J as (j & <- & _). reflexivity.
    + apply forallb_forall. intros b [<-|J]; [apply (mux_block_ok set_list SETS); auto; rewrite EI; now left|]. apply in_map_iff in J. destruct J as (j & <- & J). apply (mux_block_ok set_list SETS); auto. rewrite EI. now right.
    + intros pre post N. cbn [mapM]. rewrite (mux_load set_list SETS srt' (section_of m) signals enums m x pre post H M R) by (first [exact EI | intros y Y; apply (N y m Y); now left]). cbn [bind].
      match goal with |- context [mapM ?f (map (mux_block m x None) r)] => assert (Z : mapM f (map (mux_block m x None) r) = Ok (map (fun _ => []) r)) end.
      { clear. match goal with |- mapM ?f _ = _ => set (F := f) end. assert (Z : forall j, F (mux_block m x None j) = Ok []) by (intros j; unfold F, load_symbol, mux_block; rewrite entries_no_id by (right; eauto); reflexivity).
        clearbody F. induction r as [|j r IH]; [reflexivity|]. cbn [map mapM]. rewrite Z. cbn [bind]. rewrite IH. reflexivity. }
      rewrite Z. cbn [bind]. eexists. exists [m]. split; [reflexivity|]. split; [reflexivity|]. cbn [List.concat app].
      assert (C : List.concat (map (fun _ => @nil dmessage) r) = []) by (clear; induction r as [|j r IH]; [reflexivity|exact IH]). rewrite C.
      constructor; [|constructor]. eexists. split; [right; exists x; split; [exact M|reflexivity]|reflexivity].
Qed.
Lemma least_spec r : forall m, In (least m r) (m :: r) /\ forall y, In y (m :: r) -> m_id (least m r) <= m_id y.
Proof.
  unfold least. induction r as [|z r IH]; intros m; cbn [fold_left].
  - split; [now left|]. intros y [<-|[]]. lia.
  - destruct (Z.ltb_spec (m_id z) (m_id m)) as [L|L].
    + destruct (IH z) as [A B]. split; [destruct A as [A|A]; [right; left; exact A|right; right; exact A]|]. intros y [<-|[<-|Y]]; [specialize (B z (or_introl eq_refl)); lia|apply B; now left|apply B; now right].
    + destruct (IH m) as [A B]. split; [destruct A as [A|A]; [left; exact A|right; right; exact A]|]. intros y [<-|[<-|Y]]; [apply B; now left|specialize (B m (or_introl eq_refl)); lia|apply B; now right].
Qed.
Lemma greatest_spec r : forall m, (exists y, In y (m :: r) /\ m_id y = greatest_id m r) /\ forall y, In y (m :: r) -> m_id y <= greatest_id m r.
Proof.
  intros m. unfold greatest_id. enough (X : forall a, ((exists y, In y r /\ m_id y = fold_left (fun a x => Z.max a (m_id x)) r a) \/ fold_left (fun a x => Z.max a (m_id x)) r a = a) /\
    a <= fold_left (fun a x => Z.max a (m_id x)) r a /\ forall y, In y r -> m_id y <= fold_left (fun a x => Z.max a (m_id x)) r a).
  { destruct (X (m_id m)) as (A & B & C). split; [destruct A as [(y & Y & E)|E]; [exists y; split; [now right|exact E]|exists m; split; [now left|now rewrite E]]|]. intros y [<-|Y]; [exact B|now apply C]. }
  induction r as [|z r IH]; intros a; cbn [fold_left].
  - repeat split; [now right|lia|intros y []].
  - destruct (IH (Z.max a (m_id z))) as (A & B & C). repeat split.
    + destruct A as [(y & Y & E)|E]; [left; exists y; split; [now right|exact E]|]. rewrite E. destruct (Z.max_spec a (m_id z)) as [[_ ->]|[_ ->]]; [left; exists z; split; [now left|reflexivity]|now right].
    + lia.
    + intros y [<-|Y]; [lia|now apply C].
Qed.
Lemma many_written g : incl g (db_messages db) -> NoDup g -> (forall a b, In a g -> In b g -> m_name a = m_name b) -> (forall a b, In a g -> In b (db_messages db) -> m_name a = m_name b -> In b g) ->
  (2 <= List.length g)%nat -> exists p, group_symbols set_list g = Ok p /\ written g p.
Proof.
  intros IN ND SN ALL LEN. destruct g as [|m [|m2 r0]]; [cbn in LEN; lia|cbn in LEN; lia|]. set (g := m :: m2 :: r0) in *. set (r := m2 :: r0) in *.
  assert (IJ : forall a b, In a g -> In b g -> m_id a = m_id b -> a = b).
  { intros a b A B E. pose proof (fit_ids db FIT) as F. apply (NoDup_map_eq_ (fun m => (m_name m, m_id m)) (db_messages db) F); auto. f_equal; auto. }
  destruct (least_spec r m) as [LI LM]. destruct (greatest_spec r m) as [(y & YI & YE) GM]. fold g in LI, LM, YI, GM. change (group_symbols set_list g) with
    (let a := least m r in let mx := greatest_id m r in if mx - m_id a + 1 =? zlen g then let* l := message_symbols set_list a (Some mx) in Ok (section_of a, l) else Err ValueError).
  cbv zeta. set (a := least m r) in *. set (mx := greatest_id m r) in *.
  assert (PE : Permutation (zrange (m_id a) (mx + 1)) (map m_id g)).
  { apply NoDup_Permutation; [apply nodup_zrange_from| |].
    - clear - IJ ND. clearbody g. revert IJ. induction ND as [|z l NI ND IH]; intros IJ; [constructor|]. cbn [map]. constructor; [|apply IH; intros b c B C; apply IJ; now right].
      intros I. apply in_map_iff in I. destruct I as (w & E & W). apply NI. rewrite (IJ z w); auto; [now left|now right].
    - intros i. unfold zrange. rewrite in_zrange_from. assert (LE : m_id a <= mx) by (rewrite <- YE; now apply LM). rewrite Z2Nat.id by lia. split.
      + intros Q. destruct (fit_ranges db FIT a y i (IN a LI) (IN y YI) (SN a y LI YI) ltac:(lia)) as (c & C & NC & <-). apply in_map. apply (ALL a c LI C). now symmetry.
      + intros I. apply in_map_iff in I. destruct I as (c & <- & C). specialize (LM c C). specialize (GM c C). lia. }
  assert (LE : m_id a <= mx) by (rewrite <- YE; now apply LM).
  assert (ZL : (mx - m_id a + 1 =? zlen g) = true).
  { apply Z.eqb_eq. apply Permutation_length in PE. rewrite map_length in PE. unfold zlen. rewrite <- PE. unfold zrange. rewrite zrange_len_. lia. }
  rewrite ZL. pose proof (message_fit a (IN a LI)) as H. pose proof (message_bound a (IN a LI)) as B. pose proof (message_rows a (IN a LI)) as R.
  assert (P : plain_message a).
  { assert (EX : exists b, In b g /\ m_id a <> m_id b).
    { assert (NE : m <> m2) by (inversion ND as [|? ? NI _]; subst; intros ->; apply NI; now left). destruct (Z.eq_dec (m_id a) (m_id m)) as [E1|E1]; [|exists m; split; [now left|exact E1]]. exists m2. split; [right; now left|].
      intros E2. apply NE. apply IJ; [now left|right; now left|congruence]. }
    destruct EX as (b & BI & BN). destruct (fit_single db FIT a b (IN a LI) (IN b BI) (SN a b LI BI)); [assumption|contradiction]. }
  rewrite plain_symbols by exact P. cbn [bind]. eexists. split; [reflexivity|]. unfold written. cbn [fst snd].
  assert (SAME : forall b, In b g -> same_but_id a b) by (intros b BI; apply (fit_same_messages db FIT); auto).
  assert (MB : 0 <= mx < id_bound a). { rewrite <- YE. pose proof (message_bound y (IN y YI)) as BY. unfold id_bound in *. destruct (SAME y YI) as (<- & _) in BY. exact BY. }
  split; [|split; [|split]].
  - intros b BI. destruct (SAME b BI) as (_ & _ & E & _). unfold section_of. now rewrite E.
  - intros b c [<-|[]] C. apply (SN a c LI C).
  - cbn [forallb]. rewrite andb_true_r. apply block_ok; [exact H|apply incl_refl|intros i [E|E]; injection E as <-; assumption|intros E; discriminate E|intros e []].
  - intros pre post N. cbn [mapM]. rewrite (plain_load srt' (section_of a)) by (auto; intros j E; injection E as <-; lia). cbn [bind].
    destruct (Permutation_map_inv _ _ PE) as (l3 & E3 & P3). eexists. exists l3. split; [reflexivity|]. split; [exact P3|]. cbn [List.concat]. rewrite app_nil_r, E3, map_map.
    assert (IL : forall b, In b l3 -> In b g) by (intros b BI; apply (Permutation_in _ (Permutation_sym P3)); exact BI).
    clear - IL SAME SN LI P. induction l3 as [|b l IH]; cbn [map]; constructor; [|apply IH; intros c C; apply IL; now right].
    assert (BG : In b g) by (apply IL; now left). destruct (SAME b BG) as (E1 & E2 & E3 & E4 & E5 & E6). exists (map view_signal (m_signals b)). split.
    + left. split; [|reflexivity]. unfold plain_message in *. now rewrite <- E6.
    + unfold loaded, section_of. now rewrite (SN a b LI BG), E1, E2, E3, E4, E5, E6.
Qed.
Notation gs := (groups (sorted_py by_name (db_messages db))).
Lemma sorted_apart : ForallOrdPairs apart gs.
Proof.
  apply groups_apart. apply sorted_py_sorted; unfold by_name.
  - intros a b E. now apply chars_leb_total.
  - intros a b c A B. now apply chars_leb_trans with (m_name b).
Qed.
Lemma gs_in g m : In g gs -> In m g -> In m (db_messages db).
Proof.
  intros G M. apply (Permutation_in _ (sorted_py_perm by_name (db_messages db))). rewrite <- (groups_flat (sorted_py by_name (db_messages db))). unfold flat. apply in_flat_map. eauto.
Qed.
Lemma apart_split (l : list (list dmessage)) : ForallOrdPairs apart l -> forall l1 g l2, l = l1 ++ g :: l2 -> forall h, In h (l1 ++ l2) -> apart g h.
Proof.
  intros F. induction F as [|x l A F IH]; intros l1 g l2 E h I; [destruct l1; discriminate|]. rewrite Forall_forall in A. destruct l1 as [|y l1]; cbn [app] in E; injection E as -> ->.
  - apply A. exact I.
  - destruct I as [<-|I]; [|now apply (IH l1 g l2)]. intros a b Ia Ib N. apply (A g ltac:(apply in_app_iff; right; now left) b a Ib Ia). now symmetry.
Qed.
Lemma group_written g : In g gs -> exists p, group_symbols set_list g = Ok p /\ written g p.
Proof.
  intros G. pose proof (groups_ne _ g G) as NE. destruct g as [|m [|m2 r]]; [congruence|apply single_written; apply (gs_in [m] m G); now left|].
  apply in_split in G as SP. destruct SP as (l1 & l2 & SP).
  assert (ND : NoDup (flat gs)).
  { rewrite groups_flat. apply (Permutation_NoDup (Permutation_sym (sorted_py_perm by_name (db_messages db)))). pose proof (fit_ids db FIT) as F. now apply NoDup_map_inv in F. }
  apply many_written.
  - intros b B. now apply (gs_in _ b G).
  - rewrite SP in ND. unfold flat in ND. rewrite flat_map_app in ND. apply nodup_app_r_ in ND. cbn [flat_map] in ND. now apply nodup_app_l_ in ND.
  - intros a b A B. now apply (groups_name _ _ a b G).
  - intros a b A B N. apply (Permutation_in _ (Permutation_sym (sorted_py_perm by_name (db_messages db)))) in B. rewrite <- (groups_flat (sorted_py by_name (db_messages db))) in B. rewrite SP in B. unfold flat in B. apply in_flat_map in B. destruct B as (h & H & B).
    apply in_app_iff in H. cbn [In] in H. assert (C : In h (l1 ++ l2) \/ h = m :: m2 :: r) by (rewrite in_app_iff; intuition (subst; auto)). destruct C as [C| ->]; [|exact B]. exfalso. now apply (apart_split gs sorted_apart l1 _ l2 SP h C a b A B).
  - cbn. lia.
Qed.
Definition result_of g : string * list symbol := match group_symbols set_list g with Ok p => p | Err _ => ("", []) end.
Lemma result_written g : In g gs -> group_symbols set_list g = Ok (result_of g) /\ written g (result_of g).
Proof. intros G. destruct (group_written g G) as (p & E & W). unfold result_of. rewrite E. auto. Qed.
Definition in_section (k : string) g : bool := String.eqb (fst (result_of g)) k.
Definition symbols_in k : list symbol := flat_map (fun g => snd (result_of g)) (filter (in_section k) gs).
Lemma of_section_in k : of_section k (map result_of gs) = symbols_in k.
Proof. unfold of_section, symbols_in, in_section. induction gs as [|g l IH]; [reflexivity|]. cbn [map filter]. destruct (String.eqb (fst (result_of g)) k); cbn [flat_map]; now rewrite IH. Qed.
Lemma symbols_in_ok k : forallb symbol_ok (symbols_in k) = true.
Proof.
  apply forallb_forall. intros b I. unfold symbols_in in I. apply in_flat_map in I. destruct I as (g & G & I). apply filter_In in G. destruct (result_written g (proj1 G)) as [_ (_ & _ & O & _)]. rewrite forallb_forall in O. now apply O.
Qed.
Lemma apart_filter p (l : list (list dmessage)) : ForallOrdPairs apart l -> ForallOrdPairs apart (filter p l).
Proof.
  intros F. induction F as [|x l A F IH]; [constructor|]. cbn [filter]. destruct (p x); [|exact IH]. constructor; [|exact IH]. rewrite Forall_forall in *. intros h H. apply filter_In in H. now apply A.
Qed.
Lemma section_read k : exists r l0, mapM (load_symbol srt' k (symbols_in k) signals enums) (symbols_in k) = Ok r /\ Permutation (flat (filter (in_section k) gs)) l0 /\ Forall2 seen l0 (List.concat r).
Proof.
  unfold symbols_in at 2. pose proof (apart_filter (in_section k) gs sorted_apart) as AP.
  assert (X : forall h2 h1, filter (in_section k) gs = h1 ++ h2 -> exists r l0, mapM (load_symbol srt' k (symbols_in k) signals enums) (flat_map (fun g => snd (result_of g)) h2) = Ok r /\ Permutation (flat h2) l0 /\ Forall2 seen l0 (List.concat r)).
  { induction h2 as [|g h2 IH]; intros h1 E; [exists [], []; repeat split; constructor|].
    destruct (IH (h1 ++ [g])) as (r & l0 & M & P & F); [rewrite <- app_assoc; exact E|].
    assert (GI : In g (filter (in_section k) gs)) by (rewrite E; apply in_app_iff; right; now left). apply filter_In in GI. destruct GI as [GI GK]. unfold in_section in GK. apply String.eqb_eq in GK.
    destruct (result_written g GI) as [_ (_ & NM & _ & L)].
    pose (S := fun h => flat_map (fun g => snd (result_of g)) h).
    destruct (L (S h1) (S h2)) as (r1 & l1 & M1 & P1 & F1).
    { intros b m B MI. assert (EX : exists h, In h (h1 ++ h2) /\ In b (snd (result_of h))). { apply in_app_iff in B. unfold S in B. rewrite !in_flat_map in B. destruct B as [(h & H & B)|(h & H & B)]; exists h; rewrite in_app_iff; auto. }
      destruct EX as (h & H & HB). assert (HG : In h gs). { assert (HF : In h (filter (in_section k) gs)) by (rewrite E; rewrite in_app_iff in *; cbn [In]; intuition). apply filter_In in HF. apply HF. }
      pose proof (groups_ne _ h HG) as HN. destruct h as [|c h]; [congruence|]. destruct (result_written (c :: h) HG) as [_ (_ & NH & _)]. rewrite (NH b c HB (or_introl eq_refl)).
      intros N. apply (apart_split _ AP h1 g h2 E (c :: h) H m c MI (or_introl eq_refl)). now symmetry. }
    rewrite GK in M1. assert (ES : symbols_in k = S h1 ++ snd (result_of g) ++ S h2) by (unfold symbols_in, S; rewrite E, flat_map_app; reflexivity). rewrite <- ES in M1.
    exists (r1 ++ r), (l1 ++ l0). split; [|split].
    - cbn [flat_map]. rewrite mapM_app_, M1. cbn [bind]. now rewrite M.
    - unfold flat in *. cbn [flat_map]. now apply Permutation_app.
    - rewrite concat_app. now apply Forall2_app. }
  exact (X (filter (in_section k) gs) [] eq_refl).
Qed.
Lemma three_sections (l : list (list dmessage)) : (forall g, In g l -> In (fst (result_of g)) ["{SEND}"; "{RECEIVE}"; "{SENDRECEIVE}"]) ->
  Permutation (filter (in_section "{SEND}") l ++ filter (in_section "{RECEIVE}") l ++ filter (in_section "{SENDRECEIVE}") l) l.
Proof.
  induction l as [|g l IH]; intros H; [reflexivity|]. specialize (IH (fun h I => H h (or_intror I))). specialize (H g (or_introl eq_refl)). cbn [filter]. assert (IS : forall k, in_section k g = String.eqb (fst (result_of g)) k) by reflexivity. rewrite !IS. clear IS. cbn [In] in H.
  destruct H as [<-|[<-|[<-|[]]]]; cbn [String.eqb Ascii.eqb Bool.eqb app].
  - now apply perm_skip.
  - rewrite <- Permutation_middle. now apply perm_skip.
  - rewrite app_assoc, <- Permutation_middle, <- app_assoc. now apply perm_skip.
Qed.
Lemma section_three m : In (section_of m) ["{SEND}"; "{RECEIVE}"; "{SENDRECEIVE}"].
Proof. unfold section_of. destruct (m_senders m) as [|n [|]]; cbn [In]; auto. destruct (chars_eqb n _); auto. destruct (chars_eqb n _); auto. Qed.
Lemma gs_three : forall g, In g gs -> In (fst (result_of g)) ["{SEND}"; "{RECEIVE}"; "{SENDRECEIVE}"].
Proof.
  intros g G. pose proof (groups_ne _ g G) as NE. destruct (result_written g G) as [_ (S & _)]. destruct g as [|m g]; [congruence|]. rewrite (S m (or_introl eq_refl)). apply section_three.
Qed.
Definition rows : sym_rows := SymRows (dump_enums db) (dump_signals srt db) (symbols_in "{SEND}") (symbols_in "{RECEIVE}") (symbols_in "{SENDRECEIVE}").
Lemma rows_written : dump_rows set_list srt db = Ok rows.
Proof.
  unfold dump_rows. assert (M : mapM (group_symbols set_list) gs = Ok (map result_of gs)) by (apply mapM_all; intros g G; now apply result_written). rewrite M. cbn [bind]. now rewrite !of_section_in.
Qed.
Lemma rows_fit : rows_ok rows = true.
Proof.
  unfold rows_ok, rows. cbn [f_enums f_signals f_send f_receive f_both]. rewrite !symbols_in_ok, !andb_true_r. apply andb_true_iff. split; apply forallb_forall.
  - intros e I. unfold dump_enums in I. apply in_flat_map in I. destruct I as (s & S & I). apply unique_in in S. apply (enum_fit s e); [now apply (signal_fit db FIT)|exact I].
  - intros e I. unfold dump_signals in I. apply in_map_iff in I. destruct I as (s & <- & S). apply unique_in in S. apply row_ok, (signal_fit db FIT). unfold signals_of. apply in_flat_map in S. destruct S as (m & M & S). apply in_flat_map. exists m. split; [exact M|].
    now apply (Permutation_in _ (SRT _)).
Qed.
Lemma messages_read : exists a b c l0,
  load_section srt' (sections_of rows) signals enums "{SEND}" = Ok a /\ load_section srt' (sections_of rows) signals enums "{RECEIVE}" = Ok b /\
  load_section srt' (sections_of rows) signals enums "{SENDRECEIVE}" = Ok c /\ Permutation (db_messages db) l0 /\ Forall2 seen l0 (a ++ b ++ c).
Proof.
  destruct (section_read "{SEND}") as (r1 & l1 & M1 & P1 & F1), (section_read "{RECEIVE}") as (r2 & l2 & M2 & P2 & F2), (section_read "{SENDRECEIVE}") as (r3 & l3 & M3 & P3 & F3).
  assert (E1 : symbol_rows "{SEND}" (sections_of rows) = symbols_in "{SEND}") by apply rows_send.
  assert (E2 : symbol_rows "{RECEIVE}" (sections_of rows) = symbols_in "{RECEIVE}") by apply rows_receive.
  assert (E3 : symbol_rows "{SENDRECEIVE}" (sections_of rows) = symbols_in "{SENDRECEIVE}") by apply rows_both.
  exists (List.concat r1), (List.concat r2), (List.concat r3), (l1 ++ l2 ++ l3). unfold load_section. rewrite E1, E2, E3, M1, M2, M3. repeat split.
  - rewrite <- P1, <- P2, <- P3. rewrite <- (sorted_py_perm by_name (db_messages db)) at 1. rewrite <- (groups_flat (sorted_py by_name (db_messages db))) at 1. unfold flat. rewrite <- !flat_map_app. apply Permutation_flat_map. symmetry. apply three_sections, gs_three.
  - apply Forall2_app; [exact F1|]. now apply Forall2_app.
Qed.
End Groups.

(** ** The file *)
Theorem file_back db : sym_fit db -> exists t l0 l, dump_string set_list srt db = Ok t /\
  load_string srt' t = Ok (Db (Some (txt "6.0")) [] [] l [] [] [] [] [] [] []) /\ Permutation (db_messages db) l0 /\ Forall2 seen l0 l.
Proof.
  intros FIT. set (l0 := [SecEnums (dump_enums db); SecSignals (dump_signals srt db)]).
  destruct (enums_load db FIT l0) as (enums & LE & KN); [apply app_nil_r|].
  destruct (signals_load db srt SRT FIT enums l0) as (signals & LS & ROWS); [apply app_nil_r|exact KN|].
  destruct (messages_read db FIT signals enums ROWS) as (a & b & c & l & A & B & C & P & F).
  exists (sym_text (rows db)), l, (a ++ b ++ c). split; [unfold dump_string; now rewrite (rows_written db FIT signals enums ROWS)|]. split; [|split; assumption].
  unfold load_string. change (version_here (sym_text (rows db))) with true. cbn [orb negb]. rewrite (rows_back _ (rows_fit db FIT signals enums ROWS)).
  assert (E1 : load_enums (sections_of (rows db)) = Ok enums). { rewrite <- LE. unfold load_enums. rewrite rows_enums. change (enum_rows l0) with (dump_enums db ++ []). now rewrite app_nil_r. }
  assert (E2 : load_signals enums (sections_of (rows db)) = Ok signals). { rewrite <- LS. unfold load_signals. rewrite rows_signals. change (signal_rows l0) with (dump_signals srt db ++ []). now rewrite app_nil_r. }
  rewrite E1. cbn [bind]. rewrite E2. cbn [bind]. rewrite A. cbn [bind]. rewrite B. cbn [bind]. rewrite C. reflexivity.
Qed.
End File.
