(** Prop_ArxmlSelector: property C73, the selector of a multiplexed PDU: its named values, its initial value and the value
    that stands for no value. *)
From Coq Require Import Ascii Floats.SpecFloat.
From Verif Require Import Base PyNum Conversion Signal Message DictLemmas CSource CNames Regex DbcToken DbcTables Logreader DecodeCmd Xml Arxml ArxmlLoad Prop_Arxml ArxmlReach Prop_ArxmlNum Prop_ArxmlPdu Prop_ArxmlMsg Prop_Conv Prop_ArxmlLinks Prop_ArxmlSafety Prop_ArxmlScale.
Local Open Scope string_scope.
Local Open Scope Z_scope.
Local Open Scope list_scope.

(** ** What is seen of a signal *)
(** The value [z] of [s] is called [c] *)
Definition called (s : asignal) (z : Z) (c : choice) : Prop := exists tb, conv_choices (s_conv (a_sig s)) = Some tb /\ zget tb z = Some c.
(** What the last of several signals that say something says *)
Definition last_says {A} (says : asignal -> A -> Prop) (ds : list asignal) (x : A) : Prop :=
  exists a d b, ds = a ++ d :: b /\ says d x /\ forall d' y, In d' b -> ~ says d' y.

(** ** Named values *)
Definition dbl (c : ArxmlLoad.named) : Prop := double (nv_value c).
(** No two entries are for the same integer *)
Fixpoint single (l : list ArxmlLoad.named) : Prop :=
  match l with [] => True | x :: r => (forall y z, In y r -> equals (nv_value x) z -> ~ equals (nv_value y) z) /\ single r end.
Lemma eq_back a b z : py_eq a b = true -> equals b z -> equals a z.
Proof.
  destruct a as [x|f], b as [y|g].
  - intros E A. apply eq_equals in E. cbn in *. congruence.
  - intros E A. rewrite eq_sym in E. pose proof (proj2 (eq_equals (NFlt g) z) A) as A'. assert (Y : py_eq (NInt x) (NFlt g) = true) by now rewrite eq_sym.
    pose proof (eq_same (NFlt g) (NInt x) z E A) as W. exact W.
  - intros E A. cbn in A. subst y. now apply eq_equals.
  - unfold py_eq. cbn [py_compare]. intros E A. destruct (SFcompare f g) as [[]|] eqn:C; try discriminate. destruct (sf_eq f g C) as [<-|(s & t & -> & ->)]; exact A.
Qed.
Lemma find_none l z : (forall y, In y l -> ~ equals (nv_value y) z) -> find_name l z = None.
Proof.
  induction l as [|x l IH]; intros H; [reflexivity|]. rewrite find_cons. destruct (py_eq (nv_value x) (NInt z)) eqn:E; [|apply IH; intros y I; apply H; now right].
  apply eq_equals in E. destruct (H x (or_introl eq_refl) E).
Qed.
Lemma find_over l : single l -> Forall dbl l -> forall acc, Forall dbl acc -> forall z,
  find_name (fold_left put_choice l acc) z = match find_name l z with Some c => Some c | None => find_name acc z end.
Proof.
  induction l as [|x l IH]; intros S D acc DA z; [reflexivity|]. destruct S as (S1 & S2). inversion D as [|? ? D1 D2]; subst. cbn [fold_left].
  rewrite (IH S2 D2 _ (put_double x acc D1 DA) z), find_cons, (find_put x acc z D1 DA). destruct (py_eq (nv_value x) (NInt z)) eqn:E; [|reflexivity].
  apply eq_equals in E. rewrite find_none; [reflexivity|]. intros y I. now apply S1.
Qed.
Lemma in_put x l y : In y (put_choice l x) -> y = x \/ In y l.
Proof. induction l as [|a l IH]; cbn [In]; [intros [<-|[]]; now left|]. rewrite put_cons. destruct (py_eq (nv_value a) (nv_value x)); cbn [In]; [intros [<-|I]; auto|intros [<-|I]; [auto|]]. destruct (IH I); auto. Qed.
Lemma single_put x l : dbl x -> Forall dbl l -> single l -> single (put_choice l x).
Proof.
  intros DX. induction l as [|a l IH]; intros D S; [split; [intros y z []|exact I]|]. inversion D as [|? ? D1 D2]; subst. destruct S as (S1 & S2). rewrite put_cons. destruct (py_eq (nv_value a) (nv_value x)) eqn:E.
  - split; [|exact S2]. intros y z I X. apply S1; [exact I|]. exact (eq_back _ _ z E X).
  - split; [|now apply IH]. intros y z I A Y. apply in_put in I. destruct I as [->|I]; [|exact (S1 y z I A Y)]. rewrite (same_eq _ _ z D1 DX A Y) in E. discriminate.
Qed.
Lemma single_all cs : Forall dbl cs -> forall acc, Forall dbl acc -> single acc -> single (fold_left put_choice cs acc) /\ Forall dbl (fold_left put_choice cs acc).
Proof. induction 1 as [|c cs DC _ IH]; intros acc DA S; [now split|]. cbn. apply IH; [now apply put_double|now apply single_put]. Qed.

(** ** Signals whose table is that of their conversion *)
Definition tabled (s : asignal) : Prop :=
  conv_choices (s_conv (a_sig s)) = option_map conv_choices_of (a_choices s) /\ forall l, a_choices s = Some l -> single l /\ Forall dbl l.
Lemma factory_table sc off tb fl c : factory sc off tb fl = Ok c -> conv_choices c = tb.
Proof. unfold factory. intros H. apply bind_ok in H. destruct H as (i & _ & H). destruct tb; injection H as <-; reflexivity. Qed.
Lemma tabled_mux sel v s : tabled s -> tabled (set_mux sel v s).
Proof. unfold set_mux. destruct (s_mux_sig (a_sig s)); trivial. Qed.
Lemma called_find s z c l : tabled s -> a_choices s = Some l -> called s z c <-> find_name l z = Some c.
Proof.
  intros (E & _) A. rewrite A in E. cbn in E. unfold called, find_name. rewrite E. split; [intros (tb & [= <-] & H); exact H|intros H; eexists; split; [reflexivity|exact H]].
Qed.
Lemma called_none s z c : tabled s -> a_choices s = None -> ~ called s z c.
Proof. intros (E & _) A. rewrite A in E. cbn in E. intros (tb & H & _). congruence. Qed.

Lemma rev_cases {A} (l : list A) : l = [] \/ exists b y, l = b ++ [y].
Proof. induction l as [|a l IH]; [now left|]. right. destruct IH as [->|(b & y & ->)]; [now exists [], a|now exists (a :: b), y]. Qed.
Lemma last_snoc {A} (says : asignal -> A -> Prop) ds d x : last_says says (ds ++ [d]) x <-> says d x \/ (forall y, ~ says d y) /\ last_says says ds x.
Proof.
  split.
  - intros (a & d' & b & E & S & N). destruct (rev_cases b) as [->|(b' & y & ->)].
    + apply app_inj_tail in E. destruct E as (_ & ->). now left.
    + change (d' :: b' ++ [y]) with ((d' :: b') ++ [y]) in E. rewrite app_assoc in E. apply app_inj_tail in E. destruct E as (-> & <-). right. split; [intros w; apply N; apply in_app_iff; right; now left|].
      exists a, d', b'. split; [reflexivity|]. split; [exact S|]. intros d'' w I. apply N. apply in_app_iff. now left.
  - intros [S|(N & a & d' & b & -> & S & N')].
    + exists ds, d, []. split; [reflexivity|]. split; [exact S|]. intros ? ? [].
    + exists a, d', (b ++ [d]). split; [now rewrite <- app_assoc|]. split; [exact S|]. intros e y I. apply in_app_iff in I. destruct I as [I|[<-|[]]]; [now apply N'|apply N].
Qed.

(** ** Proofs *)
Section Proofs.
  Context (from_text : chars -> option spec_float) (from_hex : chars -> result spec_float).
  (** float() and float.fromhex() return doubles *)
  Context (FT : forall t f, from_text t = Some f -> double (NFlt f)) (FH : forall t f, from_hex t = Ok f -> double (NFlt f)).
  Context (ns : chars) (root : xml) (rf : refs) (OK : reference_dicts ns root = Ok rf).
  Context (ver : version).
  Notation v4 := (ar4 ver).
  Notation only := (only ns root).
  Notation nothing := (nothing ns root).
  Notation text_at := (text_at ns root).
  Notation int_at := (int_at from_text from_hex ns root).
  Notation valid := (valid root).
  Notation child := (child ns rf).
  Notation children := (children ns rf).
  Notation known := (known from_text from_hex ns root ver).

  Lemma signal_tabled m s : valid m -> load_signal from_text from_hex ns rf ver m = Ok (Some s) -> tabled s.
  Proof using OK FT FH.
    intros W H. unfold load_signal in H. apply bind_ok in H. destruct H as (io & C & H). destruct io as [i|]; [|discriminate].
    assert (VI : valid i).
    { pose proof (at_child ns root rf OK (loc ver ["&I-SIGNAL"] ["&SIGNAL"]) m _ W C ltac:(unfold loc; now destruct v4)) as A. apply A. }
    apply bind_ok in H. destruct H as (sys & S & H). pose proof (at_child ns root rf OK _ i sys VI S eq_refl) as B.
    destruct (match sys with Some s => negb (has_tag ns "SYSTEM-SIGNAL" s) | None => false end); [discriminate|].
    apply bind_ok in H. destruct H as (name & _ & H). apply bind_ok in H. destruct H as (so & _ & H). apply bind_ok in H. destruct H as (start & _ & H).
    apply bind_ok in H. destruct H as (len & _ & H). apply bind_ok in H. destruct H as (big & _ & H). apply bind_ok in H. destruct H as (ty & _ & H).
    apply bind_ok in H. destruct H as (((((((mn & mx) & fa) & of) & ch) & un) & com) & PH & H). apply bind_ok in H. destruct H as (ini & _ & H). apply bind_ok in H. destruct H as (inv & _ & H).
    apply bind_ok in H. destruct H as (conv & CV & H). apply bind_ok in H. destruct H as (s' & NS & H). injection H as ->. unfold new_signal in NS. apply bind_ok in NS. destruct NS as (vi & _ & NS). apply bind_ok in NS. destruct NS as (vv & _ & NS). injection NS as <-.
    split; [exact (factory_table _ _ _ _ _ CV)|]. cbn [a_choices]. intros l ->. destruct sys as [y|]; [|discriminate]. destruct B as (VY & _).
    destruct (means_ok from_text from_hex FT FH ns root rf OK ver y _ _ _ _ _ _ _ VY PH) as ([nm|] & _ & T); [|destruct T]. destruct T as (cs & -> & _ & D). apply (single_all cs D [] (Forall_nil _)). exact I.
  Qed.
  Lemma pdu_tabled pdu l : valid pdu -> load_pdu_signals from_text from_hex ns rf ver pdu = Ok l -> Forall tabled l.
  Proof using OK FT FH.
    intros W H. apply Forall_forall. intros s I. unfold load_pdu_signals in H. apply bind_ok in H. destruct H as (a & CA & H). apply bind_ok in H. destruct H as (b & CB & H). apply bind_ok in H. destruct H as (os & M & H). injection H as <-.
    assert (G : forallb good_atom (loc ver ["I-SIGNAL-TO-PDU-MAPPINGS"; "*&I-SIGNAL-TO-I-PDU-MAPPING"] ["SIGNAL-TO-PDU-MAPPINGS"; "*&I-SIGNAL-TO-I-PDU-MAPPING"]) = true) by (unfold loc; now destruct v4).
    assert (V : Forall valid (a ++ b)) by (apply Forall_app; split; [exact (children_valid ns root rf OK _ pdu a W CA G)|exact (children_valid ns root rf OK _ pdu b W CB eq_refl)]).
    rewrite Forall_forall in V. pose proof (mapM_nth _ _ _ M) as Z. apply in_flat_map in I. destruct I as (o & I & S). destruct o as [s'|]; [|destruct S]. destruct S as [->|[]].
    apply In_nth_error in I. destruct I as (k & I). apply (Z k) in I. destruct I as (m & J & E). apply nth_error_In in J. exact (signal_tabled m s (V m J) E).
  Qed.

  Definition initial (alt : node) : Prop := text_at alt ["INITIAL-DYNAMIC-PART"] (txt "true").
  Definition code (alt : node) (z : Z) : Prop := int_at alt ["SELECTOR-FIELD-CODE"] z.
  (** The alternative that counts from the start, if there is one *)
  Definition starts_with (alts : list node) (o : option Z) : Prop :=
    match o with
    | None => forall alt, In alt alts -> ~ initial alt
    | Some z => exists a alt b, alts = a ++ alt :: b /\ initial alt /\ code alt z /\ forall x, In x (a ++ b) -> ~ initial x
    end.
  Section Step.
    Context (frame : chars) (load : node -> Z -> result pdu_load).
    Context (IH : forall q next r, valid q -> load q next = Ok r -> Forall tabled (p_signals r)).
    (** The signal [d] of the alternative [alt] is the one at the place of the selector *)
    Definition in_place (pos len next : Z) (alt : node) (d : asignal) : Prop :=
      exists q r, valid q /\ only alt ["I-PDU"] q /\ load q next = Ok r /\ In d (p_signals r) /\ s_start (a_sig d) = pos /\ s_length (a_sig d) = len /\
        forall d', In d' (p_signals r) -> s_start (a_sig d') = pos -> d' = d.
    Record holds (pos len next : Z) (alts : list node) (ds : list asignal) (st : mux_state) : Prop := mkHolds {
      h_place : Forall2 (in_place pos len next) alts ds;
      h_single : single (x_choices st) /\ Forall dbl (x_choices st);
      h_names : forall z c, find_name (x_choices st) z = Some c <-> last_says (fun d c => called d z c) ds c;
      h_invalid : forall v, x_invalid st = Some v <-> last_says (fun d v => a_invalid d = Some v) ds v;
      h_initial : starts_with alts (x_initial st) }.
    Lemma step_holds sel pos len next alts ds st alt st' : valid alt -> holds pos len next alts ds st ->
      load_alternative from_text from_hex ns rf load sel pos len next st alt = Ok st' -> exists d, holds pos len next (alts ++ [alt]) (ds ++ [d]) st'.
    Proof using OK IH.
      intros W [HP (HS & HD) HN HV HI] H. unfold load_alternative in H. apply bind_ok in H. destruct H as (vo & CV & H). apply bind_ok in H. destruct H as (v & V & H). apply bind_ok in H. destruct H as (po & CP & H).
      apply bind_ok in H. destruct H as (ro & _ & H). apply bind_ok in H. destruct H as (path & _ & H). apply bind_ok in H. destruct H as (r & L & H). apply bind_ok in H. destruct H as (io & CI & H). apply bind_ok in H. destruct H as (ini & INI & H).
      destruct po as [q|]; [|discriminate]. destruct (at_child ns root rf OK _ alt _ W CP eq_refl) as (VQ & OQ). change (only alt ["I-PDU"] q) in OQ.
      pose proof (get_int from_text from_hex ns root rf OK alt _ vo v W CV eq_refl V) as CO. change (code alt v) in CO.
      destruct (filter (fun s => s_start (a_sig s) =? pos) (p_signals r)) as [|d [|? ?]] eqn:F; [discriminate| |discriminate]. destruct (s_length (a_sig d) =? len) eqn:EL; [|discriminate]. apply Z.eqb_eq in EL. injection H as <-. exists d.
      assert (ID : In d (p_signals r) /\ s_start (a_sig d) = pos).
      { assert (I : In d (filter (fun s => s_start (a_sig s) =? pos) (p_signals r))) by (rewrite F; now left). apply filter_In in I. destruct I as (I & E). apply Z.eqb_eq in E. now split. }
      destruct ID as (ID & ES). pose proof (IH q next r VQ L) as TB. rewrite Forall_forall in TB. pose proof (TB d ID) as TD. constructor; cbn [x_choices x_invalid x_initial].
      - apply Forall2_app; [exact HP|]. constructor; [|constructor]. exists q, r. repeat (split; [assumption|]). intros d' I' E'. assert (J : In d' [d]) by (rewrite <- F; apply filter_In; split; [exact I'|now apply Z.eqb_eq]). destruct J as [<-|[]]. reflexivity.
      - destruct (a_choices d) as [c|] eqn:AC; [|now split]. destruct (proj2 TD c AC) as (_ & DC). now apply single_all.
      - intros z c. rewrite last_snoc, <- HN. destruct (a_choices d) as [t|] eqn:AC.
        + destruct (proj2 TD t AC) as (SC & DC). rewrite (find_over t SC DC _ HD z). destruct (find_name t z) as [c'|] eqn:FN.
          * split; [intros [= <-]; left; now apply (called_find d z c' t TD AC)|]. intros [CC|(N & _)]; [apply (called_find d z c t TD AC) in CC; congruence|]. destruct (N c'). now apply (called_find d z c' t TD AC).
          * split; [intros FC; right; split; [|exact FC]; intros y Y; apply (called_find d z y t TD AC) in Y; congruence|]. intros [CC|(_ & FC)]; [apply (called_find d z c t TD AC) in CC; congruence|exact FC].
        + split; [intros FC; right; split; [|exact FC]; intros y; now apply called_none|]. intros [CC|(_ & FC)]; [destruct (called_none d z c TD AC CC)|exact FC].
      - intros w. rewrite last_snoc, <- HV. destruct (a_invalid d) as [i|]; split.
        + intros E. left. exact E.
        + intros [E|(N & _)]; [exact E|]. destruct (N i eq_refl).
        + intros E. right. split; [discriminate|exact E].
        + intros [E|(_ & E)]; [discriminate|exact E].
      - pose proof (at_child ns root rf OK _ alt io W CI eq_refl) as AI. cbn [map] in AI. change (bare "INITIAL-DYNAMIC-PART") with "INITIAL-DYNAMIC-PART" in AI.
        assert (IN : match io with Some n => is_text "true" (n_text n) | None => false end = true <-> initial alt).
        { destruct io as [n|]; [destruct AI as (_ & AI)|].
          - rewrite is_text_iff. split; [intros E; exists n; split; [exact AI|exact E]|]. intros (n' & O' & E). rewrite (only_fun ns root _ _ n n' AI O'). exact E.
          - split; [discriminate|]. intros (n' & O' & _). destruct (only_nothing ns root _ _ n' O' AI). }
        destruct (match io with Some n => is_text "true" (n_text n) | None => false end).
        + destruct (x_initial st) as [z|]; [discriminate|]. injection INI as <-. cbn. exists alts, alt, []. split; [reflexivity|]. split; [now apply IN|]. split; [exact CO|]. rewrite app_nil_r. exact HI.
        + injection INI as <-. assert (NA : ~ initial alt) by (intros A; apply IN in A; discriminate). destruct (x_initial st) as [z|]; cbn in *.
          * destruct HI as (a & x & b & -> & A & B & C). exists a, x, (b ++ [alt]). split; [now rewrite <- app_assoc|]. split; [exact A|]. split; [exact B|]. intros y I. rewrite app_assoc in I. apply in_app_iff in I. destruct I as [I|[<-|[]]]; [now apply C|exact NA].
          * intros y I. apply in_app_iff in I. destruct I as [I|[<-|[]]]; [now apply HI|exact NA].
    Qed.
    Lemma all_hold sel pos len next : forall todo alts ds st st', Forall valid todo -> holds pos len next alts ds st ->
      foldM (load_alternative from_text from_hex ns rf load sel pos len next) todo st = Ok st' -> exists ds', holds pos len next (alts ++ todo) ds' st'.
    Proof using OK IH.
      induction todo as [|alt todo IHt]; intros alts ds st st' W H F; [injection F as <-; exists ds; now rewrite app_nil_r|]. cbn in F. apply bind_ok in F. destruct F as (s1 & F1 & F). inversion W; subst.
      destruct (step_holds sel pos len next alts ds st alt s1 ltac:(assumption) H F1) as (d & H1). change (alt :: todo) with ([alt] ++ todo). rewrite app_assoc. now apply (IHt (alts ++ [alt]) (ds ++ [d]) s1 st').
    Qed.
    Definition places : list string :=
      either v4 ["DYNAMIC-PARTS"; "DYNAMIC-PART"; "DYNAMIC-PART-ALTERNATIVES"; "DYNAMIC-PART-ALTERNATIVE"] ["DYNAMIC-PART"; "DYNAMIC-PART-ALTERNATIVES"; "DYNAMIC-PART-ALTERNATIVE"].
    Record selects (pdu : node) (next : Z) (sel : asignal) (alts : list node) (ds : list asignal) : Prop := mkSelects {
      sl_name : s_name (a_sig sel) = to_string (frame ++ txt "_selector" ++ decimal next);
      sl_listed : Prop_ArxmlSafety.listed ns root pdu places alts;
      sl_place : Forall2 (in_place (s_start (a_sig sel)) (s_length (a_sig sel)) (next + 1)) alts ds;
      sl_names : forall z c, called sel z c <-> last_says (fun d c => called d z c) ds c;
      sl_invalid : forall v, a_invalid sel = Some v <-> last_says (fun d v => a_invalid d = Some v) ds v;
      sl_initial : exists o, starts_with alts o /\ a_raw_initial sel = option_map NInt o /\ scaled_value (s_conv (a_sig sel)) (a_raw_initial sel) (a_initial sel) }.
    Lemma multiplexed_selects pdu next out : valid pdu -> load_multiplexed from_text from_hex ns rf ver load frame pdu next = Ok out ->
      exists sel rest alts ds, fst (fst out) = sel :: rest /\ tabled sel /\ Forall tabled rest /\ selects pdu next sel alts ds.
    Proof using OK IH.
      intros W H. unfold load_multiplexed in H. apply bind_ok in H. destruct H as (po & CP & H). apply bind_ok in H. destruct H as (pos & P & H). apply bind_ok in H. destruct H as (lo & CL & H). apply bind_ok in H. destruct H as (len & L & H).
      apply bind_ok in H. destruct H as (bo & CB & H). apply bind_ok in H. destruct H as (big & B & H). apply bind_ok in H. destruct H as (alts & CA & H). apply bind_ok in H. destruct H as (st & F & H). apply bind_ok in H. destruct H as (conv & CV & H).
      apply bind_ok in H. destruct H as (sel & SE & H). apply bind_ok in H. destruct H as (refs & CR & H). apply bind_ok in H. destruct H as (statics & M & H). injection H as <-. cbn [fst].
      assert (G1 : forallb good_atom (loc ver ["DYNAMIC-PARTS"; "*DYNAMIC-PART"; "DYNAMIC-PART-ALTERNATIVES"; "*DYNAMIC-PART-ALTERNATIVE"] ["DYNAMIC-PART"; "DYNAMIC-PART-ALTERNATIVES"; "*DYNAMIC-PART-ALTERNATIVE"]) = true) by (unfold loc; now destruct v4).
      assert (G2 : forallb good_atom (loc ver ["STATIC-PARTS"; "*STATIC-PART"; "I-PDU-REF"] ["STATIC-PART"; "I-PDU-REF"]) = true) by (unfold loc; now destruct v4).
      pose proof (Prop_ArxmlSafety.at_list ns root rf OK _ pdu alts W CA G1) as LA. rewrite either_bare in LA. pose proof (children_valid ns root rf OK _ pdu alts W CA G1) as VA.
      assert (H0 : holds pos len (next + 1) [] [] (mkMux [] None [] None None [])).
      { constructor; cbn; [constructor|split; [exact I|constructor]| | |intros ? []].
        - intros z c. split; [discriminate|]. intros ([|] & ? & ? & E & _); discriminate.
        - intros v. split; [discriminate|]. intros ([|] & ? & ? & E & _); discriminate. }
      destruct (all_hold _ pos len (next + 1) alts [] [] _ st VA H0 F) as (ds & [HP (HS & HD) HN HV HI]). cbn [app] in HP, HI.
      unfold new_signal in SE. apply bind_ok in SE. destruct SE as (vi & SI & SE). apply bind_ok in SE. destruct SE as (vv & _ & SE). injection SE as <-. cbn [a_sig a_raw_initial a_initial a_choices].
      assert (CC : conv_choices conv = match x_choices st with [] => None | l => Some (conv_choices_of l) end).
      { destruct (x_choices st) as [|c0 l]; [now injection CV as <-|exact (factory_table _ _ _ _ _ CV)]. }
      eexists _, _, alts, ds. split; [reflexivity|]. split; [|split].
      - split; cbn [a_sig s_conv a_choices]; [rewrite CC; destruct (x_choices st); reflexivity|]. intros l E. destruct (x_choices st) as [|c0 l0]; [discriminate|]. injection E as <-. now split.
      - apply Forall_app. split.
        + assert (K : forall todo st0, Forall valid todo -> Forall tabled (x_signals st0) -> foldM (load_alternative from_text from_hex ns rf load (to_string (selector_name frame next)) pos len (next + 1)) todo st0 = Ok st -> Forall tabled (x_signals st)).
          { clear - IH OK. induction todo as [|alt todo IHt]; intros st0 V T F; [now injection F as <-|]. cbn in F. apply bind_ok in F. destruct F as (s1 & F1 & F). inversion V as [|? ? W V']; subst. apply (IHt s1 V'); [|exact F]. clear F IHt.
            unfold load_alternative in F1. apply bind_ok in F1. destruct F1 as (vo & _ & H). apply bind_ok in H. destruct H as (v & _ & H). apply bind_ok in H. destruct H as (po & CP & H).
            apply bind_ok in H. destruct H as (ro & _ & H). apply bind_ok in H. destruct H as (path & _ & H). apply bind_ok in H. destruct H as (r & L & H). apply bind_ok in H. destruct H as (io & _ & H). apply bind_ok in H. destruct H as (ini & _ & H).
            destruct po as [q|]; [|discriminate]. destruct (at_child ns root rf OK _ alt _ W CP eq_refl) as (VQ & _). pose proof (IH q _ r VQ L) as TB.
            destruct (filter (fun s => s_start (a_sig s) =? pos) (p_signals r)) as [|d [|? ?]]; [discriminate| |discriminate]. destruct (s_length (a_sig d) =? len); [|discriminate]. injection H as <-. cbn [x_signals].
            apply Forall_app. split; [exact T|]. apply Forall_forall. intros s I. apply in_map_iff in I. destruct I as (s' & <- & I). apply filter_In in I. apply tabled_mux. rewrite Forall_forall in TB. now apply TB. }
          refine (K alts _ VA _ F). constructor.
        + apply Forall_forall. intros s I. apply in_concat in I. destruct I as (l & I & S). apply in_map_iff in I. destruct I as (o & <- & I). apply In_nth_error in I. destruct I as (k & I). pose proof (mapM_nth _ _ _ M) as Z. apply (Z k) in I. destruct I as (r & R & E).
          unfold load_static in E. apply bind_ok in E. destruct E as (a & A & E). apply bind_ok in E. destruct E as (q' & FO & E). apply bind_ok in E. destruct E as (pl & LD & E). injection E as <-. cbn [fst] in S.
          destruct q' as [q|]; [|discriminate]. unfold follow in FO. apply bind_ok in FO. destruct FO as (a' & A' & FO). injection FO as FO. apply (look_up_iff ns root rf OK) in FO.
          pose proof (IH q (next + 1) pl ltac:(apply FO) LD) as TB. rewrite Forall_forall in TB. now apply TB.
      - constructor; cbn [a_sig s_name s_start s_length s_conv a_raw_initial a_initial a_invalid].
        + reflexivity.
        + unfold places. unfold either in *. now destruct v4.
        + exact HP.
        + intros z c. rewrite <- HN. unfold called, find_name. cbn [a_sig s_conv]. rewrite CC. destruct (x_choices st) as [|c0 l]; split.
          * intros (tb & [=] & _).
          * discriminate.
          * intros (tb & [= <-] & E). exact E.
          * intros E. eexists. split; [reflexivity|exact E].
        + exact HV.
        + exists (x_initial st). split; [exact HI|]. split; [reflexivity|]. now apply scaled_opt_ok.
    Qed.
    Lemma step_tabled sort pdu next r : valid pdu -> load_pdu_step from_text from_hex ns rf ver sort load frame pdu next = Ok r -> Forall tabled (p_signals r).
    Proof using OK IH FT FH.
      intros W H. unfold load_pdu_step in H. destruct (has_tag ns "CONTAINER-I-PDU" pdu).
      { assert (E : p_signals r = []).
        { apply bind_ok in H. destruct H as (lo & _ & H). apply bind_ok in H. destruct H as (? & _ & H). apply bind_ok in H. destruct H as (ho & _ & H). apply bind_ok in H. destruct H as (ht & _ & H).
          destruct (is_text "SHORT-HEADER" ht); [|now injection H as <-]. apply bind_ok in H. destruct H as (cs & _ & H). apply bind_ok in H. destruct H as (l & _ & H). now injection H as <-. }
        rewrite E. constructor. }
      destruct (has_tag ns "SECURED-I-PDU" pdu).
      { apply bind_ok in H. destruct H as (pp & CP & H). destruct pp as [q|]; [|discriminate]. apply bind_ok in H. destruct H as (l & L & H). apply bind_ok in H. destruct H as (here & _ & H). injection H as <-. cbn [p_signals].
        unfold payload_of in CP. destruct (at_child ns root rf OK _ pdu _ W CP eq_refl) as (VQ & _). exact (IH q next l VQ L). }
      apply bind_ok in H. destruct H as (lo & _ & H). apply bind_ok in H. destruct H as (? & _ & H). apply bind_ok in H. destruct H as (cyc & _ & H). apply bind_ok in H. destruct H as (sigs & S & H). pose proof (pdu_tabled pdu sigs W S) as T.
      destruct (has_tag ns "MULTIPLEXED-I-PDU" pdu).
      - apply bind_ok in H. destruct H as (((ms & mc) & mp) & M & H). injection H as <-. cbn [p_signals]. apply Forall_app. split; [exact T|]. destruct (multiplexed_selects pdu next _ W M) as (sel & rest & _ & _ & E & A & B & _). cbn [fst] in E. rewrite E. now constructor.
      - now injection H as <-.
    Qed.
  End Step.
  Lemma load_tabled sort frame : forall k pdu next r, valid pdu -> load_pdu from_text from_hex ns rf ver sort k frame pdu next = Ok r -> Forall tabled (p_signals r).
  Proof using OK FT FH.
    induction k as [|k IH]; intros pdu next r W H; [discriminate|]. exact (step_tabled frame _ IH sort pdu next r W H).
  Qed.
  (** The selector of a multiplexed PDU.  Its values are called as the signals at its place in the alternatives call them; where
      several of them name a value, or give the value that stands for no value, the last one counts.  Its initial value is the
      code of the only alternative that is marked as the initial one. *)
  Theorem C73_selector sort k frame pdu next r : valid pdu -> multiplexed ns pdu -> load_pdu from_text from_hex ns rf ver sort (S k) frame pdu next = Ok r ->
    exists sel alts ds, In sel (p_signals r) /\ selects frame (load_pdu from_text from_hex ns rf ver sort k frame) pdu next sel alts ds /\
      Forall2 (fun alt d => exists q, only alt ["I-PDU"] q /\ known q d) alts ds.
  Proof using OK FT FH.
    intros W (OR & T) H. cbn [load_pdu] in H. unfold load_pdu_step in H. destruct (has_tag ns "CONTAINER-I-PDU" pdu) eqn:T1; [exfalso; apply tag_iff in T1; exact (proj1 OR T1)|].
    destruct (has_tag ns "SECURED-I-PDU" pdu) eqn:T2; [exfalso; apply tag_iff in T2; exact (proj2 OR T2)|].
    apply bind_ok in H. destruct H as (lo & _ & H). apply bind_ok in H. destruct H as (? & _ & H). apply bind_ok in H. destruct H as (cyc & _ & H). apply bind_ok in H. destruct H as (sigs & S & H).
    destruct (has_tag ns "MULTIPLEXED-I-PDU" pdu) eqn:T3; [|apply tag_not in T3; contradiction].
    apply bind_ok in H. destruct H as (((ms & mc) & mp) & M & H). injection H as <-. cbn [p_signals].
    destruct (multiplexed_selects frame _ (load_tabled sort frame k) pdu next _ W M) as (sel & rest & alts & ds & E & _ & _ & SL). cbn [fst] in E. subst ms. exists sel, alts, ds. split; [apply in_app_iff; right; now left|]. split; [exact SL|].
    pose proof (sl_place _ _ _ _ _ _ _ SL) as HP. revert HP. apply f2_imp. intros alt d (q & r & VQ & OQ & L & I & _). exists q. split; [exact OQ|].
    exact (C73_pdu from_text from_hex FT FH ns root rf OK ver sort k frame q (next + 1) r d VQ L I).
  Qed.
End Proofs.

(** ** A concrete case *)
(** The selector of Mux has four bits.  Both alternatives name values of it; 1 has a name in both, the second of which counts, and
    0 stands for no value in the first.  The second alternative is the initial one. *)
Definition select_elements : list xml :=
  [ method_el "Cm1" "TEXTTABLE" [name_scale "0" "Off"; name_scale "1" "One"] [];
    method_el "Cm2" "TEXTTABLE" [name_scale "1" "On"; name_scale "2" "Two"] [];
    sys_signal "S1" "Cm1" []; sys_signal "S2" "Cm2" [];
    i_signal "Sel1" "4" [of_system "S1"; props "NETWORK-REPRESENTATION-PROPS" [el "INVALID-VALUE" [] "" [el "NUMERICAL-VALUE-SPECIFICATION" [] "" [leaf "VALUE" "0"]]]];
    i_signal "Sel2" "4" [of_system "S2"];
    i_signal "A" "8" []; i_signal "B" "8" [];
    pdu_el "P1" "2" [] [mapping "Sel1" "0" last_; mapping "A" "8" last_];
    pdu_el "P2" "2" [] [mapping "Sel2" "0" last_; mapping "B" "8" last_];
    mux_el "Mux" "2" "0" "4" last_ [alternative_el "0" "/P/P1"; el "DYNAMIC-PART-ALTERNATIVE" [] "" [leaf "INITIAL-DYNAMIC-PART" "true"; ref_el "I-PDU-REF" "I-SIGNAL-I-PDU" "/P/P2"; leaf "SELECTOR-FIELD-CODE" "2"]] [] ].
Definition select_root : xml := sys_doc select_elements.
Definition select_node : node := element_at select_root 10.
Definition select_signals : list asignal :=
  match load_pdu ex_float ex_hex ex_ns (refs_of select_root) v40 SortDefault 3 (txt "F") (fst select_node, snd select_node) 1 with Ok r => p_signals r | Err _ => [] end.
Definition select_shown (s : asignal) : string * option num * option value * option value * list (result value) :=
  (s_name (a_sig s), a_raw_initial s, a_initial s, a_invalid s, map (fun z => raw_to_scaled (s_conv (a_sig s)) (NInt z) true) [0; 1; 2; 3]).
Example C73_selector_hypotheses : reference_dicts ex_ns select_root = Ok (refs_of select_root) /\ valid select_root select_node /\ multiplexed ex_ns select_node /\
  (exists r, load_pdu ex_float ex_hex ex_ns (refs_of select_root) v40 SortDefault 3 (txt "F") select_node 1 = Ok r /\ p_signals r = select_signals /\
     exists sel alts ds, In sel select_signals /\
       selects ex_float ex_hex ex_ns select_root v40 (txt "F") (load_pdu ex_float ex_hex ex_ns (refs_of select_root) v40 SortDefault 2 (txt "F")) select_node 1 sel alts ds) /\
  map select_shown select_signals =
    [("F_selector1", Some (NInt 2), Some (VNamed 2 "Two"), Some (VNamed 0 "Off"), [Ok (VNamed 0 "Off"); Ok (VNamed 1 "On"); Ok (VNamed 2 "Two"); Ok (VNum (NInt 3))]);
     ("A", None, None, None, [Ok (VNum (NInt 0)); Ok (VNum (NInt 1)); Ok (VNum (NInt 2)); Ok (VNum (NInt 3))]);
     ("B", None, None, None, [Ok (VNum (NInt 0)); Ok (VNum (NInt 1)); Ok (VNum (NInt 2)); Ok (VNum (NInt 3))])].
Proof.
  assert (RD : reference_dicts ex_ns select_root = Ok (refs_of select_root)) by (vm_compute; reflexivity).
  assert (V : valid select_root select_node) by (vm_compute; reflexivity).
  assert (T : multiplexed ex_ns select_node).
  { assert (B : has_tag ex_ns "CONTAINER-I-PDU" select_node = false /\ has_tag ex_ns "SECURED-I-PDU" select_node = false /\ has_tag ex_ns "MULTIPLEXED-I-PDU" select_node = true) by (vm_compute; repeat split).
    destruct B as (B1 & B2 & B3). apply tag_not in B1, B2. apply tag_iff in B3. now repeat split. }
  split; [exact RD|]. split; [exact V|]. split; [exact T|]. split; [|vm_compute; reflexivity].
  destruct (load_pdu ex_float ex_hex ex_ns (refs_of select_root) v40 SortDefault 3 (txt "F") select_node 1) as [r|e] eqn:E.
  - assert (Q : p_signals r = select_signals) by (unfold select_signals; change (fst select_node, snd select_node) with select_node; now rewrite E). exists r. split; [reflexivity|]. split; [exact Q|].
    destruct (C73_selector ex_float ex_hex (proj1 ex_doubles) (proj2 ex_doubles) ex_ns select_root _ RD v40 SortDefault 2 (txt "F") select_node 1 r V T E) as (sel & alts & ds & I & S & _). exists sel, alts, ds. rewrite <- Q. split; [exact I|exact S].
  - exfalso. assert (Q : List.length select_signals = 3%nat) by (vm_compute; reflexivity). unfold select_signals in Q. change (fst select_node, snd select_node) with select_node in Q. rewrite E in Q. discriminate.
Qed.
