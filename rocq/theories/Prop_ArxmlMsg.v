(** Prop_ArxmlMsg: property C72, which messages, buses and nodes an ARXML system file has. *)
From Coq Require Import Ascii Floats.SpecFloat Sorting.Permutation.
From Verif Require Import Base PyNum Conversion Signal Message DictLemmas MsgThms Construct CSource CNames Regex DbcToken DbcTables Logreader DecodeCmd Xml Arxml ArxmlLoad Prop_Arxml ArxmlReach Prop_ArxmlNum Prop_ArxmlPdu.
Local Open Scope string_scope.
Local Open Scope Z_scope.
Local Open Scope list_scope.

(** ** What a file says about messages *)
(** What one sees of a message apart from who sends and receives it *)
Record summary := mkSummary {
  y_id : Z; y_extended : bool; y_name : string; y_length : Z; y_unused : Z; y_strict : bool; y_places : list place;
  y_bus : option chars; y_fd : bool; y_header : option Z; y_cycle : option Z }.
Definition sum_up (i : ainfo) : summary :=
  mkSummary (m_frame_id (am_core i)) (m_extended (am_core i)) (m_name (am_core i)) (m_length (am_core i)) (m_unused (am_core i)) (m_strict (am_core i))
    (map place_of (m_signals (am_core i))) (am_bus i) (am_fd i) (am_header i) (am_cycle i).

Section Spec.
  Context (from_text : chars -> option spec_float) (from_hex : chars -> result spec_float) (ns : chars) (root : xml) (v4 : bool).
  Notation reach := (reach ns root).
  Notation only := (only ns root).
  Notation nothing := (nothing ns root).
  Notation text_at := (text_at ns root).
  Notation int_at := (int_at from_text from_hex ns root).
  Notation opt_int_at := (opt_int_at from_text from_hex ns root).
  Notation is_tag t n := (is_tag ns (txt t) (snd n)).
  Notation either := (either v4).
  Notation carried := (carried from_text from_hex ns root v4).
  Notation tail_signal := (tail_signal from_text from_hex ns root).
  Notation multiplexed := (multiplexed ns).
  Notation ordinary := (ordinary ns).

  (** Packages *)
  Definition kid (n m : node) : Prop := exists i, is_kid n i m.
  Definition first_kid (t : string) (n m : node) : Prop :=
    exists i, is_kid n i m /\ is_tag t m /\ forall j k, (j < i)%nat -> is_kid n j k -> ~ is_tag t k.
  Inductive below (pick : node -> Prop) : node -> node -> Prop :=
  | below_here l p : kid l p -> pick p -> below pick l p
  | below_deeper l p l' q : kid l p -> pick p -> first_kid (either "AR-PACKAGES" "SUB-PACKAGES") p l' -> below pick l' q -> below pick l q.
  Definition package (pick : node -> Prop) (p : node) : Prop :=
    exists top, first_kid (either "AR-PACKAGES" "TOP-LEVEL-PACKAGES") ([], root) top /\ below pick top p.
  Definition any (p : node) : Prop := True.
  Definition ar_package (p : node) : Prop := is_tag "AR-PACKAGE" p.

  (** The cycle time of a PDU: that of the payload if it is secured, the least one of the alternatives if it is multiplexed.
      The text is in seconds. *)
  Definition own_period (pdu : node) (z : Z) : Prop :=
    exists t f x, text_at pdu (either ["I-PDU-TIMING-SPECIFICATIONS"; "I-PDU-TIMING"; "TRANSMISSION-MODE-DECLARATION"; "TRANSMISSION-MODE-TRUE-TIMING"; "CYCLIC-TIMING"; "TIME-PERIOD"; "VALUE"]
                                      ["I-PDU-TIMING-SPECIFICATION"; "CYCLIC-TIMING"; "REPEATING-TIME"; "VALUE"]) t /\
      from_text t = Some f /\ py_mul (NFlt f) (NInt 1000) = Ok x /\ py_int x = Ok z.
  Inductive period : node -> Z -> Prop :=
  | per_own pdu z : ordinary pdu -> ~ is_tag "MULTIPLEXED-I-PDU" pdu -> own_period pdu z -> period pdu z
  | per_secured pdu q z : ~ is_tag "CONTAINER-I-PDU" pdu -> is_tag "SECURED-I-PDU" pdu -> only pdu ["PAYLOAD"; "I-PDU"] q -> period q z -> period pdu z
  | per_multiplexed pdu alt q z : multiplexed pdu -> alternative ns root v4 pdu alt -> only alt ["I-PDU"] q -> period q z -> period pdu z.
  Definition least_period (pdu : node) (o : option Z) : Prop :=
    match o with Some z => period pdu z /\ forall z', period pdu z' -> z <= z' | None => forall z, ~ period pdu z end.

  (** The PDUs in a container *)
  Inductive contained : node -> node -> Prop :=
  | con_here pdu c : is_tag "CONTAINER-I-PDU" pdu -> text_at pdu ["HEADER-TYPE"] (txt "SHORT-HEADER") ->
      reach pdu ["CONTAINED-PDU-TRIGGERING-REFS"; "CONTAINED-PDU-TRIGGERING"; "I-PDU"] c -> contained pdu c
  | con_secured pdu q c : ~ is_tag "CONTAINER-I-PDU" pdu -> is_tag "SECURED-I-PDU" pdu -> only pdu ["PAYLOAD"; "I-PDU"] q -> contained q c -> contained pdu c.

  (** What is said of a PDU in a message of a name, in a frame of a name *)
  Definition content (frame name : chars) (pdu : node) (s : summary) : Prop :=
    y_name s = to_string name /\
    (forall p, In p (y_places s) <-> carried frame pdu 1 p \/ is_tag "SECURED-I-PDU" pdu /\ tail_signal name pdu p) /\
    (exists o, opt_int_at pdu ["UNUSED-BIT-PATTERN"] o /\ y_unused s = match o with Some z => z | None => 255 end) /\
    least_period pdu (y_cycle s).
  Definition part (frame : chars) (c : node) (s : summary) : Prop :=
    exists name header, text_at c ["SHORT-NAME"] name /\ content frame name c s /\
      int_at c ["LENGTH"] (y_length s) /\ int_at c ["CONTAINED-I-PDU-PROPS"; "HEADER-ID-SHORT-HEADER"] header /\ y_header s = Some header /\
      y_id s = 1 /\ y_extended s = false /\ y_fd s = false /\ y_bus s = None /\ y_strict s = true.
  Definition mapped (frame pdu : node) : Prop := only frame ["PDU-TO-FRAME-MAPPINGS"; "PDU-TO-FRAME-MAPPING"; "PDU"] pdu.
  (** A message and the messages in it *)
  Definition describes (strict : bool) (bus : chars) (trig : node) (s : summary) (parts : list summary) : Prop :=
    exists frame name, only trig ["FRAME"] frame /\ text_at frame ["SHORT-NAME"] name /\ y_name s = to_string name /\
      int_at trig ["IDENTIFIER"] (y_id s) /\ int_at frame ["FRAME-LENGTH"] (y_length s) /\
      (y_extended s = true <-> text_at trig ["CAN-ADDRESSING-MODE"] (txt "EXTENDED")) /\
      (y_fd s = true <-> text_at trig ["CAN-FRAME-RX-BEHAVIOR"] (txt "CAN-FD") \/ text_at trig ["CAN-FRAME-TX-BEHAVIOR"] (txt "CAN-FD")) /\
      y_bus s = Some bus /\ y_header s = None /\ y_strict s = strict /\
      ((nothing frame ["PDU-TO-FRAME-MAPPINGS"; "PDU-TO-FRAME-MAPPING"; "PDU"] /\ (forall p, ~ In p (y_places s)) /\ y_unused s = 255 /\ y_cycle s = None /\ parts = []) \/
       exists pdu, mapped frame pdu /\ content name name pdu s /\
         exists cs, Forall2 (part name) cs parts /\ forall c, In c cs <-> contained pdu c).
  (** The triggerings of frames on a bus *)
  Definition cluster (pick : node -> Prop) (c : node) : Prop := exists p, package pick p /\ reach p ["ELEMENTS"; "CAN-CLUSTER"] c.
  Definition triggered (bus : chars) (trig : node) : Prop :=
    exists c, cluster ar_package c /\ text_at c ["SHORT-NAME"] bus /\
      reach c (either ["CAN-CLUSTER-VARIANTS"; "CAN-CLUSTER-CONDITIONAL"; "PHYSICAL-CHANNELS"; "CAN-PHYSICAL-CHANNEL"; "FRAME-TRIGGERINGS"; "CAN-FRAME-TRIGGERING"]
                      ["PHYSICAL-CHANNELS"; "PHYSICAL-CHANNEL"; "FRAME-TRIGGERINGSS"; "CAN-FRAME-TRIGGERING"]) trig.
  (** Buses and nodes *)
  Definition on_bus (c : node) : Prop := cluster any c /\ (v4 = true -> exists v, reach c ["CAN-CLUSTER-VARIANTS"; "CAN-CLUSTER-CONDITIONAL"] v).
  Definition bus_of (c : node) (b : abus) : Prop :=
    text_at c ["SHORT-NAME"] (b_name b) /\
    if v4 then exists v, reach c ["CAN-CLUSTER-VARIANTS"; "CAN-CLUSTER-CONDITIONAL"] v /\ opt_int_at v ["BAUDRATE"] (b_rate b) /\ opt_int_at v ["CAN-FD-BAUDRATE"] (b_fd_rate b)
    else opt_int_at c ["SPEED"] (b_rate b) /\ b_fd_rate b = None.
  Definition ecu (e : node) : Prop := exists p, package any p /\ reach p ["ELEMENTS"; "ECU-INSTANCE"] e.
End Spec.

(** ** Proofs *)
Lemma gather {T U V} (f : T -> result (list U)) xs : forall out, mapM f xs = Ok out -> forall (P : V -> U -> Prop) (R : T -> V -> Prop),
  (forall x l, In x xs -> f x = Ok l -> exists cs, Forall2 P cs l /\ forall c, In c cs <-> R x c) ->
  exists cs, Forall2 P cs (List.concat out) /\ forall c, In c cs <-> exists x, In x xs /\ R x c.
Proof.
  induction xs as [|x xs IH]; intros out M P R H; cbn in M.
  - injection M as <-. exists []. split; [constructor|]. intros c. split; [intros []|now intros (? & [] & _)].
  - apply bind_ok in M. destruct M as (l & E & M). apply bind_ok in M. destruct M as (out' & M & E'). injection E' as <-.
    destruct (H x l (or_introl eq_refl) E) as (cs & F & I). destruct (IH out' M P R (fun y l' Y => H y l' (or_intror Y))) as (cs' & F' & I').
    exists (cs ++ cs'). split; [now apply Forall2_app|]. intros c. rewrite in_app_iff, I, I'. split.
    + intros [Q|(y & Y & Q)]; [exists x; split; [now left|exact Q]|exists y; split; [now right|exact Q]].
    + intros (y & [<-|Y] & Q); [now left|right; now exists y].
Qed.
Lemma gather_one {T U} (f : T -> result U) (P : T -> U -> Prop) xs : (forall x y, In x xs -> f x = Ok y -> P x y) -> forall out, mapM f xs = Ok out -> Forall2 P xs out.
Proof.
  induction xs as [|x xs IH]; intros H out M; cbn in M.
  - injection M as <-. constructor.
  - apply bind_ok in M. destruct M as (y & E & M). apply bind_ok in M. destruct M as (out' & M & E'). injection E' as <-. constructor; [now apply H; [left|]|]. apply IH; [|exact M]. intros z w Z. now apply H; right.
Qed.
Lemma depth_kid e k : In k (x_kids e) -> (depth_of k < depth_of e)%nat.
Proof.
  destruct e as [t a x ks]. unfold x_kids. cbn [depth_of]. intros I. apply in_map_iff in I. destruct I as ((k' & tl) & <- & I). cbn [fst].
  apply Nat.lt_succ_r. induction ks as [|(y & z) ks IH]; [destruct I|]. destruct I as [E|I]; [injection E as -> ->; lia|]. specialize (IH I). lia.
Qed.

Section Proofs.
  Context (from_text : chars -> option spec_float) (from_hex : chars -> result spec_float).
  Context (ns : chars) (root : xml) (rf : refs) (OK : reference_dicts ns root = Ok rf).
  Context (ver : version) (strict : bool) (sort : sort_arg) (keeps : forall l s, In s (apply_sort sort l) <-> In s l).
  Notation v4 := (ar4 ver).
  Notation reach := (reach ns root).
  Notation only := (only ns root).
  Notation nothing := (nothing ns root).
  Notation text_at := (text_at ns root).
  Notation int_at := (int_at from_text from_hex ns root).
  Notation opt_int_at := (opt_int_at from_text from_hex ns root).
  Notation valid := (valid root).
  Notation child := (child ns rf).
  Notation children := (children ns rf).
  Notation is_tag t n := (is_tag ns (txt t) (snd n)).
  Notation carried := (carried from_text from_hex ns root v4).
  Notation below := (below ns v4).
  Notation package := (package ns root v4).
  Notation period := (period from_text ns root v4).
  Notation least_period := (least_period from_text ns root v4).
  Notation contained := (contained ns root).

  (** *** Packages *)
  Lemma kids_iff n m : In m (n_kids n) <-> kid n m.
  Proof.
    split; [intros I; apply In_nth_error in I; destruct I as (i & I); exists i; now apply kids_nth|]. intros (i & K). apply kids_nth in K. exact (nth_error_In _ _ K).
  Qed.
  Lemma kid_depth n m : kid n m -> (depth_of (snd m) < depth_of (snd n))%nat.
  Proof. intros (i & E & _). apply depth_kid. exact (nth_error_In _ _ E). Qed.
  Lemma kid_ok n m : valid n -> kid n m -> valid m.
  Proof. intros W (i & K). exact (kid_valid root n i m W K). Qed.
  Lemma filter_first {T} (f : T -> bool) l x : (exists r, filter f l = x :: r) <-> exists i, nth_error l i = Some x /\ f x = true /\ forall j y, (j < i)%nat -> nth_error l j = Some y -> f y = false.
  Proof.
    induction l as [|y l IH]; cbn [filter].
    - split; [intros (r & E); discriminate|]. intros ([|i] & E & _); discriminate.
    - destruct (f y) eqn:F.
      + split.
        * intros (r & E). injection E as <- _. exists 0%nat. split; [reflexivity|]. split; [exact F|]. intros j z J. lia.
        * intros ([|i] & E & X & M); [injection E as <-; eexists; reflexivity|]. specialize (M 0%nat y ltac:(lia) eq_refl). congruence.
      + rewrite IH. split.
        * intros (i & E & X & M). exists (S i). split; [exact E|]. split; [exact X|]. intros [|j] z J E'; [injection E' as <-; exact F|]. apply (M j z); [lia|exact E'].
        * intros ([|i] & E & X & M); [injection E as <-; congruence|]. exists i. split; [exact E|]. split; [exact X|]. intros j z J E'. apply (M (S j) z); [lia|exact E'].
  Qed.
  Lemma find_iff t n m : n_find ns t n = Some m <-> first_kid ns t n m.
  Proof.
    unfold n_find, first_kid. assert (A : (match filter (has_tag ns t) (n_kids n) with k :: _ => Some k | [] => None end = Some m) <-> exists r, filter (has_tag ns t) (n_kids n) = m :: r).
    { destruct (filter (has_tag ns t) (n_kids n)) as [|k r]; split; try discriminate; [intros (? & E); discriminate|intros E; injection E as <-; now exists r|intros (r' & E); now injection E as <- _]. }
    rewrite A, filter_first. split; intros (i & E & T & M); exists i.
    - split; [now apply kids_nth|]. split; [now apply tag_iff|]. intros j k J K. apply tag_not. apply (M j k J). now apply kids_nth.
    - split; [now apply kids_nth|]. split; [now apply tag_iff|]. intros j k J K. apply tag_not. apply (M j k J). now apply kids_nth.
  Qed.
  Lemma first_is_kid t n m : first_kid ns t n m -> kid n m.
  Proof. intros (i & K & X). clear X. now exists i. Qed.
  Definition picks (b : bool) (p : node) : Prop := if b then ar_package ns p else any p.
  Lemma picked (b : bool) l p : In p (if b then filter (has_tag ns "AR-PACKAGE") (n_kids l) else n_kids l) <-> kid l p /\ picks b p.
  Proof.
    destruct b; cbn.
    - rewrite filter_In, kids_iff, tag_iff. reflexivity.
    - rewrite kids_iff. unfold any. tauto.
  Qed.
  Lemma sub_name : (if v4 then "AR-PACKAGES" else "SUB-PACKAGES") = either v4 "AR-PACKAGES" "SUB-PACKAGES".
  Proof. reflexivity. Qed.
  Lemma packages_iff b : forall d l p, (depth_of (snd l) <= d)%nat -> (In p (packages ns ver d b l) <-> below (picks b) l p).
  Proof.
    induction d as [|d IH]; intros l p D.
    - exfalso. destruct (snd l). cbn in D. lia.
    - cbn [packages]. rewrite in_flat_map. split.
      + intros (q & I & J). apply picked in I. destruct I as (K & P). destruct J as [<-|J]; [now apply below_here|].
        destruct (sub_list ns ver q) as [l'|] eqn:S; [|destruct J]. unfold sub_list in S. rewrite sub_name in S. apply find_iff in S.
        apply (below_deeper _ _ _ l q l' p K P S). apply IH; [|exact J]. pose proof (kid_depth _ _ K). pose proof (kid_depth _ _ (first_is_kid _ _ _ S)). lia.
      + intros B. inversion B as [l0 p0 K P|l0 q l' p0 K P S B']; subst.
        * exists p. split; [apply picked; now split|now left].
        * exists q. split; [apply picked; now split|]. right. pose proof (proj2 (find_iff _ _ _) S) as S'. unfold sub_list. rewrite sub_name, S'. apply IH; [|exact B'].
          pose proof (kid_depth _ _ K). pose proof (kid_depth _ _ (first_is_kid _ _ _ S)). lia.
  Qed.
  Lemma below_valid b l p : below b l p -> valid l -> valid p.
  Proof. induction 1 as [l p K P|l p l' q K P S B IH]; intros W; [exact (kid_ok _ _ W K)|]. apply IH. apply (kid_ok p); [exact (kid_ok _ _ W K)|exact (first_is_kid _ _ _ S)]. Qed.
  Lemma root_valid : valid ([], root).
  Proof. reflexivity. Qed.

  (** *** Cycle times *)
  Definition least (S : Z -> Prop) (o : option Z) : Prop := match o with Some z => S z /\ forall z', S z' -> z <= z' | None => forall z, ~ S z end.
  Lemma least_iff S T o : (forall z, S z <-> T z) -> least S o -> least T o.
  Proof. intros E. destruct o as [z|]; cbn; [intros (A & B); split; [now apply E|]; intros z' Z; apply B; now apply E|intros A z Z; apply (A z); now apply E]. Qed.
  Lemma least_min S T a b : least S a -> least T b -> least (fun z => S z \/ T z) (min_cycle a b).
  Proof.
    destruct a as [x|], b as [y|]; cbn.
    - intros (A & A') (B & B'). split; [destruct (Z.min_spec x y) as [(_ & ->)|(_ & ->)]; [now left|now right]|]. intros z [Z|Z]; [specialize (A' z Z)|specialize (B' z Z)]; lia.
    - intros (A & A') B. split; [now left|]. intros z [Z|Z]; [now apply A'|destruct (B z Z)].
    - intros A (B & B'). split; [now right|]. intros z [Z|Z]; [destruct (A z Z)|now apply B'].
    - intros A B z [Z|Z]; [exact (A z Z)|exact (B z Z)].
  Qed.
  Lemma own_ok pdu o : valid pdu -> cycle_time from_text ns rf ver pdu = Ok o -> least (own_period from_text ns root v4 pdu) o.
  Proof.
    intros W H. unfold cycle_time in H. apply bind_ok in H. destruct H as (x & C & H).
    assert (G : forallb good_atom (loc ver ["I-PDU-TIMING-SPECIFICATIONS"; "I-PDU-TIMING"; "TRANSMISSION-MODE-DECLARATION"; "TRANSMISSION-MODE-TRUE-TIMING"; "CYCLIC-TIMING"; "TIME-PERIOD"; "VALUE"]
                                       ["I-PDU-TIMING-SPECIFICATION"; "CYCLIC-TIMING"; "REPEATING-TIME"; "VALUE"]) = true) by (unfold loc; now destruct v4).
    pose proof (at_child ns root rf OK _ pdu x W C G) as A. rewrite either_bare in A. destruct x as [n|].
    - destruct A as (_ & A). apply bind_ok in H. destruct H as (f & F & H). apply bind_ok in H. destruct H as (y & M & H). apply bind_ok in H. destruct H as (z & Z & H). injection H as <-.
      assert (FT : from_text (n_text n) = Some f) by (destruct (n_text n); [discriminate|]; destruct (from_text _); [now injection F as <-|discriminate]).
      assert (T : text_at pdu (either v4 ["I-PDU-TIMING-SPECIFICATIONS"; "I-PDU-TIMING"; "TRANSMISSION-MODE-DECLARATION"; "TRANSMISSION-MODE-TRUE-TIMING"; "CYCLIC-TIMING"; "TIME-PERIOD"; "VALUE"]
                                      ["I-PDU-TIMING-SPECIFICATION"; "CYCLIC-TIMING"; "REPEATING-TIME"; "VALUE"]) (n_text n)) by (exists n; split; [unfold either in *; now destruct v4|reflexivity]).
      split; [exists (n_text n), f, y; now split|]. intros z' (t & f' & y' & T' & F' & M' & Z'). pose proof (text_fun ns root _ _ _ _ T T') as <-. assert (f' = f) as -> by congruence. assert (y' = y) as -> by congruence. assert (z' = z) as -> by congruence. lia.
    - injection H as <-. intros z (t & f & y & T & _). apply (text_nothing ns root pdu _ t) in T; [exact T|]. unfold either in *. now destruct v4.
  Qed.
  Section Step.
    Context (load : node -> Z -> result pdu_load) (frame : chars) (IH : forall q next r, valid q -> load q next = Ok r -> least_period q (p_cycle r)).
    Lemma alternatives_cycle sel pos len next alts : Forall valid alts -> forall (S : Z -> Prop) st st', least S (x_cycle st) -> foldM (load_alternative from_text from_hex ns rf load sel pos len next) alts st = Ok st' ->
      least (fun z => S z \/ exists alt q, In alt alts /\ only alt ["I-PDU"] q /\ period q z) (x_cycle st').
    Proof.
      induction 1 as [|alt alts W _ IHl]; intros S st st' L H.
      - injection H as <-. revert L. apply least_iff. intros z. split; [now left|]. intros [Z|(? & ? & [] & _)]. exact Z.
      - cbn in H. apply bind_ok in H. destruct H as (s1 & H1 & H).
        unfold load_alternative in H1. apply bind_ok in H1. destruct H1 as (vo & _ & H1). apply bind_ok in H1. destruct H1 as (v & _ & H1). apply bind_ok in H1. destruct H1 as (po & CP & H1).
        apply bind_ok in H1. destruct H1 as (ro & _ & H1). apply bind_ok in H1. destruct H1 as (path & _ & H1). apply bind_ok in H1. destruct H1 as (r & LO & H1). apply bind_ok in H1. destruct H1 as (io & _ & H1). apply bind_ok in H1. destruct H1 as (ini & _ & H1).
        destruct po as [q|]; [|discriminate]. destruct (at_child ns root rf OK _ alt _ W CP eq_refl) as (VQ & OQ). change (only alt ["I-PDU"] q) in OQ.
        destruct (filter _ (p_signals r)) as [|d [|? ?]]; [discriminate| |discriminate]. destruct (s_length (a_sig d) =? len); [|discriminate]. injection H1 as <-.
        pose proof (least_min S (period q) _ _ L (IH q next r VQ LO)) as M. match type of H with foldM _ _ ?s1 = _ => pose proof (IHl (fun z => S z \/ period q z) s1 st' M H) as Q end. revert Q. apply least_iff. intros z. split.
        + intros [[Z|Z]|(a & q' & I & O & Z)]; [now left|right; exists alt, q; split; [now left|now split]|right; exists a, q'; split; [now right|now split]].
        + intros [Z|(a & q' & [<-|I] & O & Z)]; [left; now left|left; right; now rewrite (only_fun ns root _ _ q q' OQ O)|right; exists a, q'; split; [exact I|now split]].
    Qed.
    Lemma step_cycle pdu next r : valid pdu -> load_pdu_step from_text from_hex ns rf ver sort load frame pdu next = Ok r -> least_period pdu (p_cycle r).
    Proof.
      intros W H. unfold load_pdu_step in H. destruct (has_tag ns "CONTAINER-I-PDU" pdu) eqn:T1.
      { assert (E : p_cycle r = None).
        { apply bind_ok in H. destruct H as (lo & _ & H). apply bind_ok in H. destruct H as (? & _ & H). apply bind_ok in H. destruct H as (ho & _ & H). apply bind_ok in H. destruct H as (ht & _ & H).
          destruct (is_text "SHORT-HEADER" ht); [|now injection H as <-]. apply bind_ok in H. destruct H as (cs & _ & H). apply bind_ok in H. destruct H as (l & _ & H). now injection H as <-. }
        rewrite E. apply tag_iff in T1. intros z P. inversion P as [pdu' z' (N & _) _ _|pdu' q z' N _ _ _|pdu' alt q z' ((N & _) & _) _ _ _]; subst; contradiction. }
      apply tag_not in T1. destruct (has_tag ns "SECURED-I-PDU" pdu) eqn:T2.
      { apply tag_iff in T2. apply bind_ok in H. destruct H as (pp & CP & H). destruct pp as [q|]; [|discriminate]. apply bind_ok in H. destruct H as (l & L & H). apply bind_ok in H. destruct H as (here & _ & H). injection H as <-. cbn [p_cycle].
        unfold payload_of in CP. destruct (at_child ns root rf OK _ pdu _ W CP eq_refl) as (VQ & OQ). change (only pdu ["PAYLOAD"; "I-PDU"] q) in OQ. generalize (IH q next l VQ L). apply least_iff. intros z. split.
        - intros P. exact (per_secured _ _ _ _ pdu q z T1 T2 OQ P).
        - intros P. inversion P as [pdu' z' (_ & N) _ _|pdu' q' z' _ _ O' P'|pdu' alt q' z' ((_ & N) & _) _ _ _]; subst; try contradiction. now rewrite (only_fun ns root _ _ q q' OQ O'). }
      apply tag_not in T2. assert (O : ordinary ns pdu) by now split.
      apply bind_ok in H. destruct H as (lo & _ & H). apply bind_ok in H. destruct H as (? & _ & H). apply bind_ok in H. destruct H as (cyc & CY & H). apply bind_ok in H. destruct H as (sigs & S & H).
      destruct (has_tag ns "MULTIPLEXED-I-PDU" pdu) eqn:T3.
      - apply tag_iff in T3. apply bind_ok in H. destruct H as (((ms & mc) & mp) & M & H). injection H as <-. cbn [p_cycle].
        unfold load_multiplexed in M. apply bind_ok in M. destruct M as (po & CP & M). apply bind_ok in M. destruct M as (pos & P & M). apply bind_ok in M. destruct M as (lo' & CL & M). apply bind_ok in M. destruct M as (len & L & M).
        apply bind_ok in M. destruct M as (bo & CB & M). apply bind_ok in M. destruct M as (big & B & M). apply bind_ok in M. destruct M as (alts & CA & M). apply bind_ok in M. destruct M as (st & F & M). apply bind_ok in M. destruct M as (conv & CV & M).
        apply bind_ok in M. destruct M as (sel & SE & M). apply bind_ok in M. destruct M as (refs & CR & M). apply bind_ok in M. destruct M as (statics & MM & M). injection M as _ <- _.
        assert (G1 : forallb good_atom (loc ver ["DYNAMIC-PARTS"; "*DYNAMIC-PART"; "DYNAMIC-PART-ALTERNATIVES"; "*DYNAMIC-PART-ALTERNATIVE"] ["DYNAMIC-PART"; "DYNAMIC-PART-ALTERNATIVES"; "*DYNAMIC-PART-ALTERNATIVE"]) = true) by (unfold loc; now destruct v4).
        pose proof (at_children ns root rf OK _ pdu alts W CA G1) as IA. rewrite either_bare in IA. pose proof (children_valid ns root rf OK _ pdu alts W CA G1) as VA.
        assert (L0 : least (fun _ => False) (x_cycle (mkMux [] None [] None None []))) by (intros z []).
        generalize (alternatives_cycle _ _ _ _ alts VA (fun _ => False) _ st L0 F). apply least_iff. intros z. split.
        + intros [[]|(alt & q & I & OQ & P')]. apply IA in I. apply (per_multiplexed _ _ _ _ pdu alt q z); [now split| |exact OQ|exact P']. unfold alternative, either in *. now destruct v4.
        + intros P'. inversion P' as [pdu' z' _ N _|pdu' q' z' _ N _ _|pdu' alt q' z' _ A OQ P'']; subst; try contradiction. right. exists alt, q'. split; [apply IA; unfold alternative, either in *; now destruct v4|now split].
      - apply tag_not in T3. injection H as <-. cbn [p_cycle]. generalize (own_ok pdu cyc W CY). apply least_iff. intros z. split.
        + intros P. now apply per_own.
        + intros P. inversion P as [pdu' z' _ _ P'|pdu' q' z' _ N _ _|pdu' alt q' z' (_ & N) _ _ _]; subst; try contradiction. exact P'.
    Qed.
  End Step.
  Lemma cycle_ok k frame pdu next r : valid pdu -> load_pdu from_text from_hex ns rf ver sort k frame pdu next = Ok r -> least_period pdu (p_cycle r).
  Proof. revert pdu next r. induction k as [|k IH]; intros pdu next r W H; [discriminate|]. exact (step_cycle _ frame (fun q next r V L => IH q next r V L) pdu next r W H). Qed.

  (** *** Messages in containers *)
  Lemma unused_ok pdu u : valid pdu -> unused_bits from_text from_hex ns rf pdu = Ok u ->
    exists o, opt_int_at pdu ["UNUSED-BIT-PATTERN"] o /\ u = match o with Some z => z | None => 255 end.
  Proof.
    intros W H. unfold unused_bits in H. apply bind_ok in H. destruct H as (x & C & H). pose proof (at_child ns root rf OK _ pdu x W C eq_refl) as A. destruct x as [n|].
    - exists (Some u). split; [|reflexivity]. exists (n_text n). split; [|exact H]. exists n. split; [apply A|reflexivity].
    - injection H as <-. exists None. split; [exact A|reflexivity].
  Qed.
  Lemma tail_ok name pdu sp x p : valid pdu -> (if has_tag ns "SECURED-I-PDU" pdu then load_secured from_text from_hex ns rf name pdu sp else Ok ([], sp)) = Ok x ->
    (In p (places (fst x)) <-> is_tag "SECURED-I-PDU" pdu /\ tail_signal from_text from_hex ns root name pdu p).
  Proof.
    intros W H. destruct (has_tag ns "SECURED-I-PDU" pdu) eqn:T.
    - apply tag_iff in T. destruct x as (l & sp'). rewrite (C71_tail from_text from_hex ns root rf OK name pdu sp l sp' W H p). cbn. tauto.
    - apply tag_not in T. injection H as <-. cbn. tauto.
  Qed.
  Lemma sum_places fid ext name len unused sigs st m : mk_message fid ext name len unused (map a_sig sigs) st sort = Ok m ->
    m_frame_id m = fid /\ m_extended m = ext /\ m_name m = name /\ m_length m = len /\ m_unused m = unused /\ m_strict m = st /\ forall p, In p (map place_of (m_signals m)) <-> In p (places sigs).
  Proof.
    intros H. destruct (mk_message_basic _ _ _ _ _ _ _ _ _ H) as (_ & S & L & U & F & X & N & T & _). repeat (split; [assumption|]).
    intros p. unfold places. rewrite S, !in_map_iff. split.
    - intros (s & <- & I). apply (proj1 (keeps _ _)) in I. apply in_map_iff in I. destruct I as (a & <- & I). now exists a.
    - intros (a & <- & I). exists (a_sig a). split; [reflexivity|]. apply (proj2 (keeps _ _)). now apply in_map.
  Qed.
  Definition parts_of (r : pdu_load) : list ainfo := match p_contained r with Some l => l | None => [] end.
  Lemma part_ok k frame c out : valid c -> load_contained from_text from_hex ns rf sort (load_pdu from_text from_hex ns rf ver sort k frame) 1 c = Ok out -> part from_text from_hex ns root v4 frame c (sum_up (fst out)).
  Proof.
    intros W H. unfold load_contained in H. apply bind_ok in H. destruct H as (name & N & H). apply bind_ok in H. destruct H as (lo & CL & H). apply bind_ok in H. destruct H as (len & L & H).
    apply bind_ok in H. destruct H as (ho & CH & H). apply bind_ok in H. destruct H as (h & HD & H). apply bind_ok in H. destruct H as (com & _ & H). apply bind_ok in H. destruct H as (u & U & H). apply bind_ok in H. destruct H as (r & R & H).
    destruct (p_contained r); [discriminate|]. apply bind_ok in H. destruct H as (here & _ & H). apply bind_ok in H. destruct H as (e & _ & H). apply bind_ok in H. destruct H as (x & X & H). apply bind_ok in H. destruct H as (i & I & H).
    injection H as <-. apply bind_ok in I. destruct I as (m & M & I). injection I as <-. cbn [fst].
    destruct (sum_places _ _ _ _ _ _ _ _ M) as (E1 & E2 & E3 & E4 & E5 & E6 & P). exists name, h. unfold sum_up. cbn. split; [exact (get_name ns root rf OK c name W N)|]. split; [|].
    - split; [exact E3|]. split; [|split; [cbn; rewrite E5; exact (unused_ok c u W U)|exact (cycle_ok k frame c 1 r W R)]].
      intros p. cbn. rewrite P. unfold places. rewrite map_app, in_app_iff. change (In p (map (fun s => place_of (a_sig s)) (p_signals r))) with (In p (places (p_signals r))).
      rewrite (C71_signals from_text from_hex ns root rf OK ver sort k frame c 1 r W R p). apply or_iff_compat_l. exact (tail_ok name c _ x p W X).
    - rewrite E4. split; [exact (get_int from_text from_hex ns root rf OK c _ lo len W CL eq_refl L)|]. split; [exact (get_int from_text from_hex ns root rf OK c _ ho h W CH eq_refl HD)|]. now repeat split.
  Qed.
  Lemma contained_ok frame : forall k pdu r, valid pdu -> load_pdu from_text from_hex ns rf ver sort k frame pdu 1 = Ok r ->
    exists cs, Forall2 (part from_text from_hex ns root v4 frame) cs (map sum_up (parts_of r)) /\ forall c, In c cs <-> contained pdu c.
  Proof.
    induction k as [|k IH]; intros pdu r W H; [discriminate|]. cbn [load_pdu] in H. unfold load_pdu_step in H. destruct (has_tag ns "CONTAINER-I-PDU" pdu) eqn:T1.
    - apply tag_iff in T1. apply bind_ok in H. destruct H as (lo & _ & H). apply bind_ok in H. destruct H as (? & _ & H). apply bind_ok in H. destruct H as (ho & CH & H). apply bind_ok in H. destruct H as (ht & HT & H).
      pose proof (get_text ns root rf OK pdu _ ho ht W CH eq_refl HT) as TX. change (text_at pdu ["HEADER-TYPE"] ht) in TX. destruct (is_text "SHORT-HEADER" ht) eqn:Q.
      + apply is_text_iff in Q. subst ht. apply bind_ok in H. destruct H as (cs & C & H). apply bind_ok in H. destruct H as (l & M & H). injection H as <-. unfold parts_of. cbn [p_contained].
        pose proof (at_children ns root rf OK _ pdu cs W C eq_refl) as IC. pose proof (children_valid ns root rf OK _ pdu cs W C eq_refl) as VC. exists cs. split.
        * rewrite map_map. apply mapM_ok in M. clear - M VC OK keeps. induction M as [|c o cs l E M IH]; [constructor|]. inversion VC; subst. constructor; [now apply (part_ok k)|now apply IH].
        * intros c. rewrite IC. split; [intros R; now apply con_here|]. intros R. inversion R; subst; [assumption|contradiction].
      + injection H as <-. exists []. split; [constructor|]. intros c. split; [intros []|]. intros R. inversion R as [pdu' c' _ TX' _|pdu' q c' N _ _ _]; subst; [|contradiction].
        rewrite (text_fun ns root _ _ _ _ TX TX') in Q. discriminate.
    - apply tag_not in T1. destruct (has_tag ns "SECURED-I-PDU" pdu) eqn:T2.
      + apply tag_iff in T2. apply bind_ok in H. destruct H as (pp & CP & H). destruct pp as [q|]; [|discriminate]. apply bind_ok in H. destruct H as (l & L & H). apply bind_ok in H. destruct H as (here & _ & H). injection H as <-.
        unfold payload_of in CP. destruct (at_child ns root rf OK _ pdu _ W CP eq_refl) as (VQ & OQ). change (only pdu ["PAYLOAD"; "I-PDU"] q) in OQ. destruct (IH q l VQ L) as (cs & F & I). exists cs. split; [exact F|].
        intros c. rewrite I. split; [intros R; exact (con_secured _ _ pdu q c T1 T2 OQ R)|]. intros R. inversion R as [pdu' c' N _ _|pdu' q' c' _ _ O' R']; subst; [contradiction|]. now rewrite (only_fun ns root _ _ q q' OQ O').
      + apply tag_not in T2. assert (E : p_contained r = None).
        { apply bind_ok in H. destruct H as (lo & _ & H). apply bind_ok in H. destruct H as (? & _ & H). apply bind_ok in H. destruct H as (cyc & CY & H). apply bind_ok in H. destruct H as (sigs & S & H).
          destruct (has_tag ns "MULTIPLEXED-I-PDU" pdu); [|now injection H as <-]. apply bind_ok in H. destruct H as (((? & ?) & ?) & _ & H). now injection H as <-. }
        exists []. unfold parts_of. rewrite E. split; [constructor|]. intros c. split; [intros []|]. intros R. inversion R; subst; contradiction.
  Qed.

  (** *** Messages *)
  Definition sum_all (m : amessage) : summary * list summary := (sum_up (am_info m), map sum_up (am_contained m)).
  Notation describes := (describes from_text from_hex ns root v4 strict).
  Lemma message_ok limit bus trig m : valid trig -> load_message from_text from_hex ns rf ver strict sort limit bus trig = Ok m -> describes bus trig (fst (sum_all m)) (snd (sum_all m)).
  Proof.
    intros W H. unfold load_message in H. apply bind_ok in H. destruct H as (fo & CF & H). apply bind_ok in H. destruct H as (frame & F & H). destruct fo as [f|]; [|discriminate]. injection F as ->.
    destruct (at_child ns root rf OK _ trig _ W CF eq_refl) as (VF & OF). change (only trig ["FRAME"] frame) in OF.
    apply bind_ok in H. destruct H as (name & N & H). apply bind_ok in H. destruct H as (ido & CI & H). apply bind_ok in H. destruct H as (id & I & H). apply bind_ok in H. destruct H as (lo & CL & H). apply bind_ok in H. destruct H as (len & L & H).
    apply bind_ok in H. destruct H as (mo & CM & H). apply bind_ok in H. destruct H as (com & _ & H). apply bind_ok in H. destruct H as (rx & CR & H). apply bind_ok in H. destruct H as (tx & CT & H). apply bind_ok in H. destruct H as (po & CP & H).
    pose proof (get_name ns root rf OK frame name VF N) as TN. pose proof (get_int from_text from_hex ns root rf OK trig _ ido id W CI eq_refl I) as II. change (int_at trig ["IDENTIFIER"] id) in II.
    pose proof (get_int from_text from_hex ns root rf OK frame _ lo len VF CL eq_refl L) as IL. change (int_at frame ["FRAME-LENGTH"] len) in IL.
    pose proof (get_flag ns root rf OK trig _ mo "EXTENDED" W CM eq_refl) as EX. pose proof (get_flag ns root rf OK trig _ rx "CAN-FD" W CR eq_refl) as RX. pose proof (get_flag ns root rf OK trig _ tx "CAN-FD" W CT eq_refl) as TX.
    set (ext := match mo with Some n => is_text "EXTENDED" (n_text n) | None => false end) in *.
    set (fd1 := match rx with Some n => is_text "CAN-FD" (n_text n) | None => false end) in *. set (fd2 := match tx with Some n => is_text "CAN-FD" (n_text n) | None => false end) in *.
    pose proof (at_child ns root rf OK _ frame po VF CP eq_refl) as AP.
    assert (FD : fd1 || fd2 = true <-> text_at trig ["CAN-FRAME-RX-BEHAVIOR"] (txt "CAN-FD") \/ text_at trig ["CAN-FRAME-TX-BEHAVIOR"] (txt "CAN-FD")) by (rewrite orb_true_iff, RX, TX; reflexivity).
    exists frame, name. destruct po as [pdu|].
    - destruct AP as (VP & OP). change (mapped ns root frame pdu) in OP.
      apply bind_ok in H. destruct H as (ro & _ & H). apply bind_ok in H. destruct H as (path & _ & H). apply bind_ok in H. destruct H as (r & R & H). apply bind_ok in H. destruct H as (e & _ & H). apply bind_ok in H. destruct H as (x & X & H).
      apply bind_ok in H. destruct H as (u & U & H). apply bind_ok in H. destruct H as (i & NI & H). injection H as <-. unfold new_info in NI. apply bind_ok in NI. destruct NI as (m & M & NI). injection NI as <-.
      destruct (sum_places _ _ _ _ _ _ _ _ M) as (E1 & E2 & E3 & E4 & E5 & E6 & P). unfold sum_all, sum_up. cbn. rewrite E1, E2, E4, E6.
      split; [exact OF|]. split; [exact TN|]. split; [exact E3|]. split; [exact II|]. split; [exact IL|]. split; [exact EX|]. split; [exact FD|]. do 3 (split; [reflexivity|]). right. exists pdu. split; [exact OP|]. split.
      + split; [exact E3|]. split; [|split; [cbn; rewrite E5; exact (unused_ok pdu u VP U)|exact (cycle_ok limit name pdu 1 r VP R)]].
        intros p. cbn. rewrite P. unfold places. rewrite map_app, in_app_iff. change (In p (map (fun s => place_of (a_sig s)) (p_signals r))) with (In p (places (p_signals r))).
        rewrite (C71_signals from_text from_hex ns root rf OK ver sort limit name pdu 1 r VP R p). apply or_iff_compat_l. exact (tail_ok name pdu _ x p VP X).
      + exact (contained_ok name limit pdu r VP R).
    - apply bind_ok in H. destruct H as (i & NI & H). injection H as <-. unfold new_info in NI. apply bind_ok in NI. destruct NI as (m & M & NI). injection NI as <-.
      destruct (sum_places _ _ _ _ _ [] _ _ M) as (E1 & E2 & E3 & E4 & E5 & E6 & P). unfold sum_all, sum_up. cbn. rewrite E1, E2, E4, E5, E6.
      split; [exact OF|]. split; [exact TN|]. split; [exact E3|]. split; [exact II|]. split; [exact IL|]. split; [exact EX|]. split; [exact FD|]. do 3 (split; [reflexivity|]). left. split; [exact AP|]. split; [intros p Q; now apply P in Q|now repeat split].
  Qed.
  Definition describes' (bt : chars * node) (m : amessage) : Prop := describes (fst bt) (snd bt) (fst (sum_all m)) (snd (sum_all m)).
  Definition triggers (bus : chars) (c trig : node) : Prop :=
    reach c (either v4 ["CAN-CLUSTER-VARIANTS"; "CAN-CLUSTER-CONDITIONAL"; "PHYSICAL-CHANNELS"; "CAN-PHYSICAL-CHANNEL"; "FRAME-TRIGGERINGS"; "CAN-FRAME-TRIGGERING"]
                       ["PHYSICAL-CHANNELS"; "PHYSICAL-CHANNEL"; "FRAME-TRIGGERINGSS"; "CAN-FRAME-TRIGGERING"]) trig /\ text_at c ["SHORT-NAME"] bus.
  Lemma package_messages_ok limit p l : valid p -> package_messages from_text from_hex ns rf ver strict sort limit p = Ok l ->
    exists bts, Forall2 describes' bts l /\ forall bt, In bt bts <-> exists c, reach p ["ELEMENTS"; "CAN-CLUSTER"] c /\ triggers (fst bt) c (snd bt).
  Proof.
    intros W H. unfold package_messages in H. apply bind_ok in H. destruct H as (cs & C & H). apply bind_ok in H. destruct H as (ls & M & H). injection H as <-.
    pose proof (at_children ns root rf OK _ p cs W C eq_refl) as IC. pose proof (children_valid ns root rf OK _ p cs W C eq_refl) as VC. rewrite Forall_forall in VC.
    destruct (gather _ _ _ M describes' (fun c bt => triggers (fst bt) c (snd bt))) as (bts & F & I).
    - intros c l IN Q. apply bind_ok in Q. destruct Q as (bus & N & Q). apply bind_ok in Q. destruct Q as (ts & T & Q). specialize (VC c IN).
      assert (G : forallb good_atom (loc ver ["CAN-CLUSTER-VARIANTS"; "*&CAN-CLUSTER-CONDITIONAL"; "PHYSICAL-CHANNELS"; "*&CAN-PHYSICAL-CHANNEL"; "FRAME-TRIGGERINGS"; "*&CAN-FRAME-TRIGGERING"]
                                 ["PHYSICAL-CHANNELS"; "*&PHYSICAL-CHANNEL"; "FRAME-TRIGGERINGSS"; "*&CAN-FRAME-TRIGGERING"]) = true) by (unfold loc; now destruct v4).
      pose proof (at_children ns root rf OK _ c ts VC T G) as IT. rewrite either_bare in IT. pose proof (children_valid ns root rf OK _ c ts VC T G) as VT. rewrite Forall_forall in VT.
      pose proof (get_name ns root rf OK c bus VC N) as TN. exists (map (pair bus) ts). split.
      + apply mapM_ok in Q. clear - Q VT OK keeps. induction Q as [|t m ts l E Q IH]; [constructor|]. cbn [map]. constructor; [apply (message_ok limit); [apply VT; now left|exact E]|]. apply IH. intros y Y. apply VT. now right.
      + intros (bus', t). cbn. rewrite in_map_iff. unfold triggers, either in *. split.
        * intros (t' & E & I). injection E as <- <-. apply IT in I. split; [now destruct v4|exact TN].
        * intros (R & TN'). exists t. rewrite (text_fun ns root _ _ _ _ TN TN'). split; [reflexivity|]. apply IT. now destruct v4.
    - exists bts. split; [exact F|]. intros bt. rewrite I. split; intros (c & Q & R); exists c; (split; [now apply IC|exact R]).
  Qed.

  (** *** What comes after the messages does not change them in this respect *)
  Definition keep (ms ms' : list amessage) : Prop := map sum_all ms = map sum_all ms'.
  Lemma keep_fold {T} (f : list amessage -> T -> result (list amessage)) : (forall ms x ms', f ms x = Ok ms' -> keep ms ms') -> forall l ms ms', foldM f l ms = Ok ms' -> keep ms ms'.
  Proof.
    intros K. induction l as [|x l IH]; intros ms ms' H; cbn in H; [now injection H as <-|]. apply bind_ok in H. destruct H as (m1 & E & H). unfold keep in *. rewrite (K _ _ _ E). now apply IH.
  Qed.
  Lemma keep_change path f ms : (forall b i, sum_up (f b i) = sum_up i) -> keep ms (change_pdu path f ms).
  Proof.
    intros K. unfold keep, change_pdu. rewrite map_map. apply map_ext. intros m. unfold sum_all. cbn. rewrite map_map. f_equal.
    - destruct (mem_text path (sp_paths (am_spec (am_info m)))); [now rewrite K|reflexivity].
    - apply map_ext. intros i. destruct (mem_text path (sp_paths (am_spec i))); [now rewrite K|reflexivity].
  Qed.
  Lemma keep_nodes f pdus ms ms' : change_nodes rf f pdus ms = Ok ms' -> (forall b i, sum_up (f b i) = sum_up i) -> keep ms ms'.
  Proof.
    intros H K. revert H. apply keep_fold. intros m1 p m2 H. apply bind_ok in H. destruct H as (path & _ & H). injection H as <-. now apply keep_change.
  Qed.
  Lemma keep_ecu_group e ms g ms' : ecu_group ns rf ver e ms g = Ok ms' -> keep ms ms'.
  Proof.
    intros H. unfold ecu_group in H. apply bind_ok in H. destruct H as (d & _ & H). apply bind_ok in H. destruct H as (dir & _ & H). apply bind_ok in H. destruct H as (pdus & _ & H).
    destruct (is_text "IN" dir); [apply (keep_nodes _ _ _ _ H (fun _ _ => eq_refl))|]. destruct (is_text "OUT" dir); [apply (keep_nodes _ _ _ _ H (fun _ _ => eq_refl))|]. now injection H as <-.
  Qed.
  Lemma keep_ecu ms e ms' : ecu_links ns rf ver ms e = Ok ms' -> keep ms ms'.
  Proof. intros H. unfold ecu_links in H. apply bind_ok in H. destruct H as (o & _ & H). apply bind_ok in H. destruct H as (n & _ & H). apply bind_ok in H. destruct H as (gs & _ & H). revert H. apply keep_fold. apply keep_ecu_group. Qed.
  Lemma keep_nm_node ms n ms' : nm_node_links ns rf ms n = Ok ms' -> keep ms ms'.
  Proof.
    intros H. unfold nm_node_links in H. apply bind_ok in H. destruct H as (c & _ & H). destruct c as [r|]; [|now injection H as <-]. apply bind_ok in H. destruct H as (t & _ & H). apply bind_ok in H. destruct H as (p & _ & H).
    destruct (look_up ns rf p (Some (txt "ECU-INSTANCE"))) as [e|]; [|now injection H as <-]. apply bind_ok in H. destruct H as (n' & _ & H). apply bind_ok in H. destruct H as (rx & _ & H). apply bind_ok in H. destruct H as (m1 & H1 & H). apply bind_ok in H. destruct H as (tx & _ & H).
    unfold keep. rewrite (keep_nodes _ _ _ _ H1 (fun _ _ => eq_refl)). exact (keep_nodes _ _ _ _ H (fun _ _ => eq_refl)).
  Qed.
  Lemma keep_package ms p ms' : package_links ns rf ver ms p = Ok ms' -> keep ms ms'.
  Proof.
    intros H. unfold package_links in H. apply bind_ok in H. destruct H as (es & _ & H). apply bind_ok in H. destruct H as (m1 & H1 & H). unfold keep. rewrite (keep_fold _ keep_ecu _ _ _ H1).
    unfold nm_links in H. destruct v4; [|now injection H as <-]. apply bind_ok in H. destruct H as (cs & _ & H). revert H. apply keep_fold. intros m2 c m3 H. apply bind_ok in H. destruct H as (l & _ & H). exact (keep_fold _ keep_nm_node _ _ _ H).
  Qed.
  Lemma keep_links : forall d l ms ms', links ns rf ver d l ms = Ok ms' -> keep ms ms'.
  Proof.
    induction d as [|d IH]; intros l ms ms' H; cbn in H; destruct l as [l|]; try (now injection H as <-); [discriminate|]. apply bind_ok in H. destruct H as (ps & _ & H). revert H. apply keep_fold.
    intros m1 p m2 H. apply bind_ok in H. destruct H as (m3 & H3 & H). apply bind_ok in H. destruct H as (s & _ & H). unfold keep. rewrite (keep_package _ _ _ H3). exact (IH _ _ _ H).
  Qed.
  Lemma keep_order : forall d l ms ms', system_order ns rf ver d l ms = Ok ms' -> keep ms ms'.
  Proof.
    induction d as [|d IH]; intros l ms ms' H; cbn in H; [now injection H as <-|]. revert H. apply keep_fold. intros m1 p m2 H. apply bind_ok in H. destruct H as (s & _ & H). destruct s as [s|].
    - apply bind_ok in H. destruct H as (o & _ & H). injection H as <-. unfold keep. rewrite map_map. apply map_ext. intros m. unfold sum_all. destruct (am_contained m) eqn:E; cbn; now rewrite ?E.
    - destruct (sub_list ns ver p); [exact (IH _ _ _ H)|now injection H as <-].
  Qed.
  Lemma keep_protect ms p ms' : package_protect from_text from_hex ns rf ms p = Ok ms' -> keep ms ms'.
  Proof.
    intros H. unfold package_protect in H. apply bind_ok in H. destruct H as (l & _ & H). revert H. apply keep_fold. intros m1 x m2 H. unfold protect in H. apply bind_ok in H. destruct H as (po & _ & H).
    destruct po as [prof|]; [|now injection H as <-]. apply bind_ok in H. destruct H as (c & _ & H). apply bind_ok in H. destruct H as (ds & _ & H). apply bind_ok in H. destruct H as (ids & _ & H). apply bind_ok in H. destruct H as (pdus & _ & H).
    refine (keep_nodes _ _ _ _ H _). intros [|] i; reflexivity.
  Qed.
  Lemma describes_keep bts : forall ms ms', keep ms ms' -> Forall2 describes' bts ms -> Forall2 describes' bts ms'.
  Proof.
    induction bts as [|bt bts IH]; intros ms ms' K F; inversion F; subst; destruct ms' as [|m' ms']; try discriminate; [constructor|]. unfold keep in K. pose proof (f_equal (hd (sum_all m')) K) as K1. apply (f_equal (@tl _)) in K. cbn [map hd tl] in K, K1. constructor.
    - unfold describes'. rewrite <- K1. assumption.
    - now apply (IH l').
  Qed.
  (** *** Buses and nodes *)
  Lemma bus_ok c l : valid c -> cluster_bus from_text from_hex ns rf ver c = Ok l ->
    exists cs, Forall2 (bus_of from_text from_hex ns root v4) cs l /\ forall c', In c' cs <-> c' = c /\ (v4 = true -> exists v, reach c ["CAN-CLUSTER-VARIANTS"; "CAN-CLUSTER-CONDITIONAL"] v).
  Proof.
    intros W H. unfold cluster_bus in H. apply bind_ok in H. destruct H as (name & N & H). apply bind_ok in H. destruct H as (com & _ & H). pose proof (get_name ns root rf OK c name W N) as TN. unfold bus_of. destruct v4.
    - apply bind_ok in H. destruct H as (vs & C & H). pose proof (at_children ns root rf OK _ c vs W C eq_refl) as IV. pose proof (children_valid ns root rf OK _ c vs W C eq_refl) as VV.
      destruct vs as [|v vs].
      + injection H as <-. exists []. split; [constructor|]. intros c'. split; [intros []|]. intros (_ & E). destruct (E eq_refl) as (v & R). now apply IV in R.
      + inversion VV; subst. apply bind_ok in H. destruct H as (pv & _ & H). apply bind_ok in H. destruct H as (b & CB & H). apply bind_ok in H. destruct H as (rate & B & H). apply bind_ok in H. destruct H as (f & CF & H). apply bind_ok in H. destruct H as (fd & F & H). injection H as <-.
        exists [c]. assert (R : reach c ["CAN-CLUSTER-VARIANTS"; "CAN-CLUSTER-CONDITIONAL"] v) by (apply IV; now left). split.
        * constructor; [|constructor]. cbn. split; [exact TN|]. exists v. split; [exact R|]. split; [apply (get_opt_int from_text from_hex ns root rf OK v ["BAUDRATE"] b); trivial|apply (get_opt_int from_text from_hex ns root rf OK v ["CAN-FD-BAUDRATE"] f); trivial].
        * intros c'. cbn. split; [intros [<-|[]]; split; [reflexivity|intros _; now exists v]|intros (-> & _); now left].
    - apply bind_ok in H. destruct H as (pv & _ & H). apply bind_ok in H. destruct H as (b & CB & H). apply bind_ok in H. destruct H as (rate & B & H). injection H as <-. exists [c]. split.
      + constructor; [|constructor]. cbn. split; [exact TN|]. split; [|reflexivity]. apply (get_opt_int from_text from_hex ns root rf OK c ["SPEED"] b); trivial.
      + intros c'. cbn. split; [intros [<-|[]]; now split|intros (-> & _); now left].
  Qed.
  Lemma package_buses_ok p l : valid p -> package_buses from_text from_hex ns rf ver p = Ok l ->
    exists cs, Forall2 (bus_of from_text from_hex ns root v4) cs l /\ forall c, In c cs <-> reach p ["ELEMENTS"; "CAN-CLUSTER"] c /\ (v4 = true -> exists v, reach c ["CAN-CLUSTER-VARIANTS"; "CAN-CLUSTER-CONDITIONAL"] v).
  Proof.
    intros W H. unfold package_buses in H. apply bind_ok in H. destruct H as (cs & C & H). apply bind_ok in H. destruct H as (ls & M & H). injection H as <-.
    pose proof (at_children ns root rf OK _ p cs W C eq_refl) as IC. pose proof (children_valid ns root rf OK _ p cs W C eq_refl) as VC. rewrite Forall_forall in VC.
    destruct (gather _ _ _ M (bus_of from_text from_hex ns root v4) (fun c c' => c' = c /\ (v4 = true -> exists v, reach c ["CAN-CLUSTER-VARIANTS"; "CAN-CLUSTER-CONDITIONAL"] v))) as (bs & F & I).
    - intros c l IN Q. exact (bus_ok c l (VC c IN) Q).
    - exists bs. split; [exact F|]. intros c. rewrite I, <- IC. split; [intros (c' & Q & -> & R); now split|intros (Q & R); now exists c].
  Qed.
  Lemma package_nodes_ok p l : valid p -> package_nodes ns rf p = Ok l ->
    exists es, Forall2 (fun e n => text_at e ["SHORT-NAME"] (nd_name n)) es l /\ forall e, In e es <-> reach p ["ELEMENTS"; "ECU-INSTANCE"] e.
  Proof.
    intros W H. unfold package_nodes in H. apply bind_ok in H. destruct H as (es & C & M).
    pose proof (at_children ns root rf OK _ p es W C eq_refl) as IC. pose proof (children_valid ns root rf OK _ p es W C eq_refl) as VC. rewrite Forall_forall in VC. exists es. split; [|exact IC].
    revert M. apply gather_one. intros e n I H. apply bind_ok in H. destruct H as (name & N & H). apply bind_ok in H. destruct H as (com & _ & H). injection H as <-. exact (get_name ns root rf OK e name (VC e I) N).
  Qed.
  Lemma database_ok limit db : load_database from_text from_hex ns rf ver strict sort limit ([], root) = Ok db ->
    (exists bts, Forall2 describes' bts (db_messages db) /\ forall bt, In bt bts <-> triggered ns root v4 (fst bt) (snd bt)) /\
    (exists cs, Forall2 (bus_of from_text from_hex ns root v4) cs (db_buses db) /\ forall c, In c cs <-> on_bus ns root v4 c) /\
    (exists es, Forall2 (fun e n => text_at e ["SHORT-NAME"] (nd_name n)) es (db_nodes db) /\ forall e, In e es <-> ecu ns root v4 e) /\ db_version db = ver.
  Proof.
    intros H. unfold load_database in H. destruct (n_find ns (if v4 then "AR-PACKAGES" else "TOP-LEVEL-PACKAGES") ([], root)) as [top|] eqn:T; [|discriminate].
    change (if v4 then "AR-PACKAGES" else "TOP-LEVEL-PACKAGES") with (either v4 "AR-PACKAGES" "TOP-LEVEL-PACKAGES") in T.
    assert (PK : forall b p, In p (all_packages ns ver b top) <-> package (picks b) p).
    { intros b p. unfold all_packages. rewrite packages_iff by reflexivity. split; [intros B; exists top; split; [now apply find_iff|exact B]|]. intros (top' & F & B). apply find_iff in F. rewrite T in F. now injection F as <-. }
    assert (PV : forall b p, In p (all_packages ns ver b top) -> valid p).
    { intros b p I. apply PK in I. destruct I as (top' & F & B). apply (below_valid _ _ _ B). exact (kid_ok _ _ root_valid (first_is_kid _ _ _ F)). }
    apply bind_ok in H. destruct H as (bs & B & H). apply bind_ok in H. destruct H as (nds & N & H). apply bind_ok in H. destruct H as (msgs & M & H). apply bind_ok in H. destruct H as (m1 & H1 & H). apply bind_ok in H. destruct H as (m2 & H2 & H). apply bind_ok in H. destruct H as (m3 & H3 & H). injection H as <-. cbn.
    split; [|split; [|split; [|reflexivity]]].
    - destruct (gather _ _ _ M describes' (fun p bt => exists c, reach p ["ELEMENTS"; "CAN-CLUSTER"] c /\ triggers (fst bt) c (snd bt))) as (bts & F & I).
      + intros p l IN Q. exact (package_messages_ok limit p l (PV true p IN) Q).
      + exists bts. split.
        * apply (describes_keep bts (List.concat msgs)); [|exact F]. unfold keep. rewrite (keep_links _ _ _ _ H1), (keep_order _ _ _ _ H2). exact (keep_fold _ keep_protect _ _ _ H3).
        * intros bt. rewrite I. unfold triggered, cluster. split.
          { intros (p & IN & c & R & TR & TN). exists c. split; [exists p; split; [now apply (PK true)|exact R]|now split]. }
          { intros (c & (p & IN & R) & TN & TR). exists p. split; [now apply (PK true)|]. exists c. split; [exact R|now split]. }
    - destruct (gather _ _ _ B _ _ (fun p l IN Q => package_buses_ok p l (PV false p IN) Q)) as (cs & F & I). exists cs. split; [exact F|]. intros c. rewrite I. unfold on_bus, cluster. split.
      + intros (p & IN & R & V). split; [exists p; split; [now apply (PK false)|exact R]|exact V].
      + intros ((p & IN & R) & V). exists p. split; [now apply (PK false)|now split].
    - destruct (gather _ _ _ N _ _ (fun p l IN Q => package_nodes_ok p l (PV false p IN) Q)) as (es & F & I). exists es. split; [exact F|]. intros e. rewrite I. unfold ecu. split; intros (p & IN & R); exists p; (split; [now apply (PK false)|exact R]).
  Qed.
End Proofs.

(** ** The theorems *)
(** A function for sorting must lose and invent nothing. *)
Definition keeps (sort : sort_arg) : Prop := forall l s, In s (apply_sort sort l) <-> In s l.
Section Theorems.
  Context (from_text : chars -> option spec_float) (from_hex : chars -> result spec_float) (strict : bool) (sort : sort_arg) (K : keeps sort) (limit : nat) (root : xml) (ns : chars) (db : adatabase).
  Context (N : root_namespace (x_tag root) = Ok ns) (L : load_system from_text from_hex strict sort limit root = Ok db).
  Notation v4 := (newer (db_version db) 4).
  Lemma loaded : exists rf, reference_dicts ns root = Ok rf /\ load_database from_text from_hex ns rf (db_version db) strict sort limit ([], root) = Ok db.
  Proof.
    pose proof L as H. unfold load_system in H. rewrite N in H. cbn [bind] in H. apply bind_ok in H. destruct H as (t & _ & H). apply bind_ok in H. destruct H as (ver & _ & H).
    destruct ((fst (fst ver) =? 4) || (fst (fst ver) =? 3)); [|discriminate]. apply bind_ok in H. destruct H as (rf & R & H). exists rf. split; [exact R|].
    destruct (database_ok from_text from_hex ns root rf R ver strict sort K limit db H) as (_ & _ & _ & ->). exact H.
  Qed.
  (** There is one message for every frame that is triggered on a bus, and it is as the file says. *)
  Theorem C72_messages : exists triggers, (forall bus trig, In (bus, trig) triggers <-> triggered ns root v4 bus trig) /\
    Forall2 (fun t m => describes from_text from_hex ns root v4 strict (fst t) (snd t) (sum_up (am_info m)) (map sum_up (am_contained m))) triggers (db_messages db).
  Proof.
    destruct loaded as (rf & R & D). destruct (database_ok from_text from_hex ns root rf R _ strict sort K limit db D) as ((bts & F & I) & _). exists bts. split; [intros bus trig; apply I|exact F].
  Qed.
  Theorem C72_buses : exists clusters, (forall c, In c clusters <-> on_bus ns root v4 c) /\ Forall2 (bus_of from_text from_hex ns root v4) clusters (db_buses db).
  Proof.
    destruct loaded as (rf & R & D). destruct (database_ok from_text from_hex ns root rf R _ strict sort K limit db D) as (_ & (cs & F & I) & _). exists cs. split; [exact I|exact F].
  Qed.
  Theorem C72_nodes : exists ecus, (forall e, In e ecus <-> ecu ns root v4 e) /\ Forall2 (fun e n => text_at ns root e ["SHORT-NAME"] (nd_name n)) ecus (db_nodes db).
  Proof.
    destruct loaded as (rf & R & D). destruct (database_ok from_text from_hex ns root rf R _ strict sort K limit db D) as (_ & _ & (es & F & I) & _). exists es. split; [exact I|exact F].
  Qed.
End Theorems.

(** ** Concrete cases *)
Lemma keeps_default : keeps SortDefault.
Proof. intros l s. split; apply Permutation_in; [|apply Permutation_sym]; apply sort_default_perm. Qed.
Lemma keeps_none : keeps SortNone.
Proof. intros l s. reflexivity. Qed.
Definition summaries (r : result adatabase) : result (list (summary * list summary)) := match r with Ok db => Ok (map sum_all (db_messages db)) | Err e => Err e end.
(** Three frames: a multiplexed PDU, a secured one with the extended identifier 100000, and a container of a plain and a
    secured PDU on CAN FD; the period of the plain PDU is half a second *)
Definition plain_places : list place := [mkPlace "A" 0 8 false true false false None None; mkPlace "F" 15 32 true false true false None None].
Example C72_hypotheses : keeps SortDefault /\ keeps SortNone /\ root_namespace (x_tag sys_root) = Ok ex_ns /\
  (exists db, load_system ex_float ex_hex true SortDefault 3 sys_root = Ok db /\ newer (db_version db) 4 = true /\
    map (fun b => (string_of_list_ascii (b_name b), b_rate b, b_fd_rate b)) (db_buses db) = [("Bus", Some 500000, Some 2000000)] /\
    map (fun n => string_of_list_ascii (nd_name n)) (db_nodes db) = ["Ecu1"; "Ecu2"]) /\
  summaries (load_system ex_float ex_hex true SortDefault 3 sys_root) = Ok
    [(mkSummary 5 false "FMux" 4 255 true
        [mkPlace "FMux_selector1" 0 4 false false false true None None; mkPlace "C" 4 4 false false false false (Some [1]) (Some "FMux_selector1");
         mkPlace "B" 15 16 true false false false (Some [2]) (Some "FMux_selector1"); mkPlace "A" 24 8 false true false false None None]
        (Some (txt "Bus")) false None None, []);
     (mkSummary 100000 true "FSec" 8 0 true
        (plain_places ++ [mkPlace "FSec_Freshness" 47 4 true false false false None None; mkPlace "FSec_Authenticator" 43 20 true false false false None None])
        (Some (txt "Bus")) false None (Some 500), []);
     (mkSummary 7 false "FBox" 64 255 true [] (Some (txt "Bus")) true None None,
        [mkSummary 1 false "Plain" 5 255 true plain_places None false (Some 17) (Some 500);
         mkSummary 1 false "Sec" 8 0 true
           (plain_places ++ [mkPlace "Sec_Freshness" 47 4 true false false false None None; mkPlace "Sec_Authenticator" 43 20 true false false false None None])
           None false (Some 18) (Some 500)])].
Proof.
  split; [exact keeps_default|]. split; [exact keeps_none|]. split; [vm_compute; reflexivity|]. split; [|vm_compute; reflexivity].
  destruct (load_system ex_float ex_hex true SortDefault 3 sys_root) as [db|] eqn:E; [|vm_compute in E; discriminate]. exists db.
  split; [reflexivity|]. vm_compute in E. injection E as <-. split; [reflexivity|]. split; reflexivity.
Qed.
(** The smallest document with one frame and one PDU *)
Definition one_frame (pdu_tag : string) (pdus : list xml) : xml := sys_doc (pdus ++
  [ named_el "CAN-FRAME" "F" [leaf "FRAME-LENGTH" "64"; el "PDU-TO-FRAME-MAPPINGS" [] "" [named_el "PDU-TO-FRAME-MAPPING" "M" [ref_el "PDU-REF" pdu_tag "/P/Pdu"]]];
    named_el "CAN-CLUSTER" "Bus" [el "CAN-CLUSTER-VARIANTS" [] "" [el "CAN-CLUSTER-CONDITIONAL" [] "" [
      el "PHYSICAL-CHANNELS" [] "" [named_el "CAN-PHYSICAL-CHANNEL" "Ch" [
        el "FRAME-TRIGGERINGS" [] "" [named_el "CAN-FRAME-TRIGGERING" "T" [ref_el "FRAME-REF" "CAN-FRAME" "/P/F"; leaf "CAN-FRAME-RX-BEHAVIOR" "CAN-FD"; leaf "IDENTIFIER" "1"]];
        el "PDU-TRIGGERINGS" [] "" [named_el "PDU-TRIGGERING" "InTrig" [ref_el "I-PDU-REF" "I-SIGNAL-I-PDU" "/P/In"]]]]]]] ]).
(** "Without strict no overlaps are refused" fails for the messages in containers: they are always checked.  A and B
    overlap; the frame itself may have them, the container may not. *)
Definition clash : list xml := [mapping "A" "0" last_; mapping "B" "4" last_].
Definition boxed (maps : list xml) : xml := one_frame "CONTAINER-I-PDU"
  [ i_signal "A" "8" []; i_signal "B" "8" []; pdu_el "In" "2" [header "3"] maps;
    named_el "CONTAINER-I-PDU" "Pdu" [leaf "LENGTH" "64"; leaf "HEADER-TYPE" "SHORT-HEADER";
      el "CONTAINED-PDU-TRIGGERING-REFS" [] "" [ref_el "CONTAINED-PDU-TRIGGERING-REF" "PDU-TRIGGERING" "/P/Bus/Ch/InTrig"]] ].
Theorem C72_strict_refuted :
  summaries (load_system ex_float ex_hex false SortDefault 3 (one_frame "I-SIGNAL-I-PDU" [i_signal "A" "8" []; i_signal "B" "8" []; pdu_el "Pdu" "2" [] clash; pdu_el "In" "2" [] []])) =
    Ok [(mkSummary 1 false "F" 64 255 false [mkPlace "A" 0 8 false false false false None None; mkPlace "B" 4 8 false false false false None None] (Some (txt "Bus")) true None None, [])] /\
  summaries (load_system ex_float ex_hex false SortDefault 3 (boxed clash)) = Err CantoolsError /\
  summaries (load_system ex_float ex_hex false SortDefault 3 (boxed [mapping "A" "0" last_])) =
    Ok [(mkSummary 1 false "F" 64 255 false [] (Some (txt "Bus")) true None None, [mkSummary 1 false "In" 2 255 true [mkPlace "A" 0 8 false false false false None None] None false (Some 3) None])].
Proof. split; [vm_compute; reflexivity|]. split; vm_compute; reflexivity. Qed.
(** "A message has the cycle time that its PDU states" fails for multiplexed PDUs: their own timing is read and dropped. *)
Theorem C72_period_refuted :
  let pdu := named_el "MULTIPLEXED-I-PDU" "Pdu" [leaf "LENGTH" "1"; timing "0.5"; leaf "SELECTOR-FIELD-LENGTH" "4"; leaf "SELECTOR-FIELD-START-POSITION" "0"] in
  let root := one_frame "MULTIPLEXED-I-PDU" [pdu; pdu_el "In" "2" [] []] in
  own_period ex_float ex_ns root true (element_at root 0) 500 /\
  summaries (load_system ex_float ex_hex true SortDefault 3 root) =
    Ok [(mkSummary 1 false "F" 64 255 true [mkPlace "F_selector1" 0 4 false false false true None None] (Some (txt "Bus")) true None None, [])].
Proof.
  intros pdu root. split; [|vm_compute; reflexivity].
  assert (OK : reference_dicts ex_ns root = Ok (refs_of root)) by (vm_compute; reflexivity). assert (V : valid root (element_at root 0)) by (vm_compute; reflexivity).
  assert (C : cycle_time ex_float ex_ns (refs_of root) v40 (fst (element_at root 0), snd (element_at root 0)) = Ok (Some 500)) by (vm_compute; reflexivity).
  exact (proj1 (own_ok ex_float ex_hex ex_ns root (refs_of root) OK v40 (fst (element_at root 0), snd (element_at root 0)) _ V C)).
Qed.
(** "The length of a PDU is optional", as the test for it in _load_pdu says: the frame does not load without it. *)
Theorem C72_length_refuted :
  load_system ex_float ex_hex true SortDefault 3 (one_frame "I-SIGNAL-I-PDU" [i_signal "A" "8" []; named_el "I-SIGNAL-I-PDU" "Pdu" [el "I-SIGNAL-TO-PDU-MAPPINGS" [] "" [mapping "A" "0" last_]]; pdu_el "In" "2" [] []]) = Err AttributeError.
Proof. vm_compute. reflexivity. Qed.
