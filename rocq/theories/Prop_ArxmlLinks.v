(** Prop_ArxmlLinks: property C74, which nodes of an ARXML system file send and receive its messages, and the byte order of
    the headers in containers. *)
From Coq Require Import Ascii Floats.SpecFloat.
From Verif Require Import Base PyNum Conversion Signal Message DictLemmas MsgThms Construct CSource CNames Regex DbcToken DbcTables Logreader DecodeCmd Xml Arxml ArxmlLoad Prop_Arxml ArxmlReach Prop_ArxmlNum Prop_ArxmlPdu Prop_ArxmlMsg.
Local Open Scope string_scope.
Local Open Scope Z_scope.
Local Open Scope list_scope.

(** ** What a file says about senders and receivers *)
Inductive role := Sends | Receives.
(** The path of what a path is in *)
Definition above (t a : chars) : Prop := (exists b, t = a ++ slash :: b /\ ~ In slash b) \/ ~ In slash t /\ a = [].

Section Spec.
  Context (ns : chars) (root : xml) (v4 : bool).
  Notation reach := (reach ns root).
  Notation only := (only ns root).
  Notation nothing := (nothing ns root).
  Notation text_at := (text_at ns root).
  Notation is_tag t n := (is_tag ns (txt t) (snd n)).
  Notation either := (either v4).

  (** The packages in which ECUs are looked for *)
  Inductive searched : node -> node -> Prop :=
  | se_here l p : reach l ["AR-PACKAGE"] p -> searched l p
  | se_deeper l p s q : reach l ["AR-PACKAGE"] p -> only p [either "AR-PACKAGES" "SUB-PACKAGES"] s -> searched s q -> searched l q.
  Definition search_package (p : node) : Prop :=
    exists top, first_kid ns (either "AR-PACKAGES" "TOP-LEVEL-PACKAGES") ([], root) top /\ searched top p.
  Definition direction (r : role) : chars := match r with Sends => txt "OUT" | Receives => txt "IN" end.
  (** An ECU-INSTANCE with a group of PDUs.  The white space around its name does not count. *)
  Definition ecu_names (e : node) (ecu : chars) : Prop := exists t, text_at e ["SHORT-NAME"] t /\ t <> [] /\ trimmed t ecu.
  Definition by_group (r : role) (ecu : chars) (q : node) : Prop :=
    exists p e g, search_package p /\ reach p ["ELEMENTS"; "ECU-INSTANCE"] e /\ ecu_names e ecu /\
      reach e (either ["ASSOCIATED-COM-I-PDU-GROUP-REFS"; "ASSOCIATED-COM-I-PDU-GROUP"] ["ASSOCIATED-I-PDU-GROUP-REFS"; "ASSOCIATED-I-PDU-GROUP"]) g /\
      text_at g ["COMMUNICATION-DIRECTION"] (direction r) /\
      reach g (either ["I-SIGNAL-I-PDUS"; "I-SIGNAL-I-PDU-REF-CONDITIONAL"; "I-SIGNAL-I-PDU"] ["I-PDU-REFS"; "I-PDU"]) q.
  (** A node of the network management, in AUTOSAR 4 only.  Its controller is part of an ECU-INSTANCE, whose name is taken as it is. *)
  Definition by_management (r : role) (ecu : chars) (q : node) : Prop :=
    v4 = true /\ exists p c n k par a e, search_package p /\ reach p ["ELEMENTS"; "NM-CONFIG"; "NM-CLUSTERS"; "CAN-NM-CLUSTER"] c /\ reach c ["NM-NODES"; "CAN-NM-NODE"] n /\
      only n ["CONTROLLER-REF"] k /\ above (x_text (snd k)) par /\ stands_for ns root (fst n) par None a /\ leads_to ns root a (Some (txt "ECU-INSTANCE")) e /\
      text_at e ["SHORT-NAME"] ecu /\
      reach n match r with Sends => ["TX-NM-PDU-REFS"; "TX-NM-PDU"] | Receives => ["RX-NM-PDU-REFS"; "RX-NM-PDU"] end q.
  (** An ECU sends or receives the PDU of a path *)
  Definition takes_part (r : role) (ecu path : chars) : Prop :=
    exists q, (by_group r ecu q \/ by_management r ecu q) /\ path = path_at ns root (fst q).

  (** The paths of the PDUs of which a PDU is made.  Those of alternatives and static parts are the paths that the references stand for. *)
  Definition points_to (n r : node) (path : chars) : Prop :=
    exists base, attr_says (snd r) "BASE" base /\ x_text (snd r) <> [] /\ stands_for ns root (fst n) (x_text (snd r)) base path.
  Definition static_ref (pdu r q : node) (path : chars) : Prop :=
    reach pdu (either ["STATIC-PARTS"; "STATIC-PART"; "I-PDU-REF"] ["STATIC-PART"; "I-PDU-REF"]) r /\ points_to pdu r path /\
    exists dest a', attr_says (snd r) "DEST" dest /\ stands_for ns root (fst pdu) path None a' /\ leads_to ns root a' dest q.
  Inductive beneath : node -> chars -> Prop :=
  | be_contained pdu c path : is_tag "CONTAINER-I-PDU" pdu -> text_at pdu ["HEADER-TYPE"] (txt "SHORT-HEADER") ->
      reach pdu ["CONTAINED-PDU-TRIGGERING-REFS"; "CONTAINED-PDU-TRIGGERING"; "I-PDU"] c -> path = path_at ns root (fst c) \/ beneath c path -> beneath pdu path
  | be_payload pdu q path : ~ is_tag "CONTAINER-I-PDU" pdu -> is_tag "SECURED-I-PDU" pdu -> only pdu ["PAYLOAD"; "I-PDU"] q -> path = path_at ns root (fst q) \/ beneath q path -> beneath pdu path
  | be_alternative pdu alt r path : multiplexed ns pdu -> alternative ns root v4 pdu alt -> only alt ["I-PDU-REF"] r -> points_to alt r path -> beneath pdu path
  | be_dynamic pdu alt q path : multiplexed ns pdu -> alternative ns root v4 pdu alt -> only alt ["I-PDU"] q -> beneath q path -> beneath pdu path
  | be_part pdu r q path : multiplexed ns pdu -> static_ref pdu r q path -> beneath pdu path
  | be_static pdu r q path path' : multiplexed ns pdu -> static_ref pdu r q path' -> beneath q path -> beneath pdu path.
  (** The paths of a message *)
  Definition frame_path (frame pdu : node) (path : chars) : Prop :=
    (exists r, only frame ["PDU-TO-FRAME-MAPPINGS"; "PDU-TO-FRAME-MAPPING"; "PDU-REF"] r /\ points_to r r path) \/ beneath pdu path.
  Definition part_path (c : node) (path : chars) : Prop := path = path_at ns root (fst c) \/ beneath c path.
  (** The senders of a message and the receivers of its signals *)
  Definition linked (paths : chars -> Prop) (i : ainfo) : Prop :=
    (forall ecu, In ecu (am_senders i) <-> exists path, paths path /\ takes_part Sends ecu path) /\
    (forall s ecu, In s (am_signals i) -> (In ecu (a_receivers s) <-> exists path, paths path /\ takes_part Receives ecu path)).
  Definition all_linked (trig : node) (m : amessage) : Prop :=
    exists frame, only trig ["FRAME"] frame /\
      (nothing frame ["PDU-TO-FRAME-MAPPINGS"; "PDU-TO-FRAME-MAPPING"; "PDU"] /\ am_senders (am_info m) = [] /\ am_signals (am_info m) = [] /\ am_contained m = [] \/
       exists pdu, mapped ns root frame pdu /\ linked (frame_path frame pdu) (am_info m) /\
         exists cs, Forall2 (fun c i => linked (part_path c) i) cs (am_contained m) /\ forall c, In c cs <-> contained ns root pdu c).

  (** The systems that are looked at for the byte order: not below a package with a system *)
  Inductive system_below : node -> node -> Prop :=
  | sy_here l p s : kid l p -> only p ["ELEMENTS"; "SYSTEM"] s -> system_below l s
  | sy_deeper l p l' s : kid l p -> nothing p ["ELEMENTS"; "SYSTEM"] -> first_kid ns (either "AR-PACKAGES" "SUB-PACKAGES") p l' -> system_below l' s -> system_below l s.
  Definition system_of (p s : node) : Prop :=
    only p ["ELEMENTS"; "SYSTEM"] s \/ exists l, nothing p ["ELEMENTS"; "SYSTEM"] /\ first_kid ns (either "AR-PACKAGES" "SUB-PACKAGES") p l /\ system_below l s.
  (** The one that comes last *)
  Definition no_more (l : node) (i : nat) : Prop := forall j p s, (i < j)%nat -> is_kid l j p -> ~ system_of p s.
  Inductive last_system : node -> node -> Prop :=
  | la_here l i p s : is_kid l i p -> only p ["ELEMENTS"; "SYSTEM"] s -> no_more l i -> last_system l s
  | la_deeper l i p l' s : is_kid l i p -> nothing p ["ELEMENTS"; "SYSTEM"] -> first_kid ns (either "AR-PACKAGES" "SUB-PACKAGES") p l' -> last_system l' s -> no_more l i -> last_system l s.
  Definition little_headers (s : node) : Prop := text_at s ["CONTAINER-I-PDU-HEADER-BYTE-ORDER"] (txt "MOST-SIGNIFICANT-BYTE-LAST").
  (** The headers are in big endian byte order unless the last system says otherwise *)
  Definition header_order (m : amessage) : Prop :=
    am_contained m = [] /\ am_big_header m = true \/
    am_contained m <> [] /\ exists top, first_kid ns (either "AR-PACKAGES" "TOP-LEVEL-PACKAGES") ([], root) top /\
      ((forall s, ~ system_below top s) /\ am_big_header m = true \/ exists s, last_system top s /\ (am_big_header m = false <-> little_headers s)).
End Spec.

(** ** Changes of messages *)
Lemma mem_iff t l : mem_text t l = true <-> In t l.
Proof.
  unfold mem_text. rewrite existsb_exists. split.
  - intros (x & I & E). destruct (cspec t x); [now subst|discriminate].
  - intros I. exists t. split; [exact I|]. now destruct (cspec t t).
Qed.
Lemma add_iff t l x : In x (add_text t l) <-> In x l \/ x = t.
Proof.
  unfold add_text. destruct (mem_text t l) eqn:E.
  - apply mem_iff in E. split; [now left|]. intros [I| ->]; [exact I|exact E].
  - rewrite in_app_iff. cbn. intuition.
Qed.
Definition events := role -> chars -> chars -> Prop.
Definition none : events := fun _ _ _ => False.
(** Messages to which the participants [E] have been added *)
Definition grown (E : events) (i i' : ainfo) : Prop :=
  sp_paths (am_spec i') = sp_paths (am_spec i) /\
  (forall ecu, In ecu (am_senders i') <-> In ecu (am_senders i) \/ exists path, In path (sp_paths (am_spec i)) /\ E Sends ecu path) /\
  Forall2 (fun s s' => a_sig s' = a_sig s /\ forall ecu, In ecu (a_receivers s') <-> In ecu (a_receivers s) \/ exists path, In path (sp_paths (am_spec i)) /\ E Receives ecu path) (am_signals i) (am_signals i').
Definition all_grown (E : events) (ms ms' : list amessage) : Prop :=
  Forall2 (fun m m' => grown E (am_info m) (am_info m') /\ Forall2 (grown E) (am_contained m) (am_contained m') /\ am_big_header m' = am_big_header m) ms ms'.
Lemma f2_refl {A} (R : A -> A -> Prop) l : (forall x, R x x) -> Forall2 R l l.
Proof. intros H. induction l; constructor; trivial. Qed.
Lemma f2_trans {A} (R S T : A -> A -> Prop) a : (forall x y z, R x y -> S y z -> T x z) -> forall b c, Forall2 R a b -> Forall2 S b c -> Forall2 T a c.
Proof. intros H. induction a as [|x a IH]; intros b c F G; inversion F; subst; inversion G; subst; constructor; [now apply (H _ y)|now apply (IH l')]. Qed.
Lemma f2_imp {A B} (R S : A -> B -> Prop) a b : (forall x y, R x y -> S x y) -> Forall2 R a b -> Forall2 S a b.
Proof. intros H. induction 1; constructor; auto. Qed.
Lemma f2_map {A} (R : A -> A -> Prop) (f : A -> A) l : (forall x, R x (f x)) -> Forall2 R l (map f l).
Proof. intros H. induction l; constructor; trivial. Qed.
Lemma grown_none i : grown none i i.
Proof. split; [reflexivity|]. split; [intros e; split; [now left|intros [H|(p & _ & [])]; exact H]|]. apply f2_refl. intros s. split; [reflexivity|]. intros e. split; [now left|intros [H|(p & _ & [])]; exact H]. Qed.
Lemma grown_trans (E F G : events) i j k : (forall r e p, G r e p <-> E r e p \/ F r e p) -> grown E i j -> grown F j k -> grown G i k.
Proof.
  intros H (P1 & S1 & R1) (P2 & S2 & R2). rewrite P1 in *. split; [exact P2|]. split.
  - intros e. rewrite S2, S1. setoid_rewrite H. firstorder.
  - revert R1 R2. apply f2_trans. intros x y z (A1 & A2) (B1 & B2). split; [congruence|]. intros e. rewrite B2, A2. setoid_rewrite H. clear. firstorder.
Qed.
Lemma grown_iff (E F : events) i j : (forall r e p, E r e p <-> F r e p) -> grown E i j -> grown F i j.
Proof.
  intros H (P & S & R). split; [exact P|]. split; [intros e; rewrite S; now setoid_rewrite H|]. revert R. apply f2_imp. intros s s' (A & B). split; [exact A|]. intros e. rewrite B. now setoid_rewrite H.
Qed.
Lemma all_none ms : all_grown none ms ms.
Proof. apply f2_refl. intros m. split; [apply grown_none|]. split; [apply f2_refl; apply grown_none|reflexivity]. Qed.
Lemma all_trans (E F G : events) a b c : (forall r e p, G r e p <-> E r e p \/ F r e p) -> all_grown E a b -> all_grown F b c -> all_grown G a c.
Proof.
  intros H A B. revert A B. apply f2_trans. intros x y z (A1 & A2 & A3) (B1 & B2 & B3). split; [now apply (grown_trans E F G _ (am_info y))|]. split; [|congruence]. revert A2 B2. apply f2_trans. intros i j k. now apply grown_trans.
Qed.
Lemma all_iff (E F : events) a b : (forall r e p, E r e p <-> F r e p) -> all_grown E a b -> all_grown F a b.
Proof. intros H. apply f2_imp. intros m m' (A & B & C). split; [now apply (grown_iff E F)|]. split; [|exact C]. revert B. apply f2_imp. intros i j. now apply grown_iff. Qed.
Lemma all_fold {T} (f : list amessage -> T -> result (list amessage)) (R : T -> events) : forall l ms ms',
  (forall x ms ms', In x l -> f ms x = Ok ms' -> all_grown (R x) ms ms') -> foldM f l ms = Ok ms' -> all_grown (fun r e p => exists x, In x l /\ R x r e p) ms ms'.
Proof.
  induction l as [|x l IH]; intros ms ms' K H; cbn in H.
  - injection H as <-. apply (all_iff none); [|apply all_none]. intros r e p. split; [intros []|now intros (? & [] & _)].
  - apply bind_ok in H. destruct H as (m1 & E & H). apply (all_trans (R x) (fun r e p => exists y, In y l /\ R y r e p) _ _ m1).
    + intros r e p. split; [intros (y & [<-|Y] & Q); [now left|right; now exists y]|intros [Q|(y & Y & Q)]; [exists x; split; [now left|exact Q]|exists y; split; [now right|exact Q]]].
    + exact (K x _ _ (or_introl eq_refl) E).
    + apply IH; [|exact H]. intros y a b Y. apply K. now right.
Qed.
Definition added (r : role) (ecu : chars) : ainfo -> ainfo := match r with Sends => add_sender ecu | Receives => add_receiver ecu end.
Definition only_event (r : role) (ecu path : chars) : events := fun r' e p => r' = r /\ e = ecu /\ p = path.
Lemma grown_added r ecu path i : grown (only_event r ecu path) i (if mem_text path (sp_paths (am_spec i)) then added r ecu i else i).
Proof.
  destruct (mem_text path (sp_paths (am_spec i))) eqn:M.
  - apply mem_iff in M. destruct r; cbn [added]; (split; [reflexivity|]).
    + split; [|apply f2_refl; intros s; split; [reflexivity|]; intros e; split; [now left|intros [I|(p & _ & N & _)]; [exact I|discriminate]]].
      intros e. cbn. rewrite add_iff. apply or_iff_compat_l. split; [intros ->; exists path; now repeat split|now intros (p & _ & _ & -> & _)].
    + split; [intros e; split; [now left|intros [I|(p & _ & N & _)]; [exact I|discriminate]]|]. cbn [add_receiver am_signals]. apply f2_map. intros s. split; [reflexivity|]. intros e. cbn. rewrite add_iff. apply or_iff_compat_l.
      split; [intros ->; exists path; now repeat split|now intros (p & _ & _ & -> & _)].
  - assert (N : ~ In path (sp_paths (am_spec i))) by (rewrite <- mem_iff; now rewrite M). split; [reflexivity|].
    split; [intros e; split; [now left|intros [I|(p & I & _ & _ & ->)]; [exact I|contradiction]]|]. apply f2_refl. intros s. split; [reflexivity|]. intros e. split; [now left|intros [I|(p & I & _ & _ & ->)]; [exact I|contradiction]].
Qed.
Lemma all_change r ecu path ms : all_grown (only_event r ecu path) ms (change_pdu path (fun _ => added r ecu) ms).
Proof. unfold change_pdu. apply f2_map. intros m. cbn. split; [apply grown_added|]. split; [|reflexivity]. apply f2_map. intros i. apply grown_added. Qed.

(** ** Proofs *)
Lemma join_split c l : join_with c (split_on c l) = l.
Proof.
  induction l as [|x l IH]; [reflexivity|]. cbn [split_on]. destruct (split_nonempty c l) as (w & ws & E). rewrite E in *. destruct (Ascii.eqb_spec x c) as [->|N].
  - change (c :: join_with c (w :: ws) = c :: l). now rewrite IH.
  - destruct ws; cbn [join_with] in *; now rewrite <- IH.
Qed.
Lemma split_free c l : Forall (fun w => ~ In c w) (split_on c l).
Proof.
  induction l as [|x l IH]; cbn [split_on]; [repeat constructor; intros []|]. destruct (Ascii.eqb_spec x c) as [->|N]; [constructor; [intros []|exact IH]|].
  destruct (split_on c l) as [|w ws]; [repeat constructor; intros [E|[]]; contradiction|]. inversion IH; subst. constructor; [|assumption]. intros [E|I]; contradiction.
Qed.
Lemma join_snoc c l w : l <> [] -> join_with c (l ++ [w]) = join_with c l ++ c :: w.
Proof.
  induction l as [|x l IH]; [contradiction|]. intros _. destruct l as [|y l]; [reflexivity|]. change (x ++ c :: join_with c ((y :: l) ++ [w]) = (x ++ c :: join_with c (y :: l)) ++ c :: w). rewrite IH by discriminate. now rewrite <- app_assoc.
Qed.
Lemma above_ok t : above t (parent_path t).
Proof.
  unfold parent_path, above. destruct (split_nonempty slash t) as (w & ws & E). pose proof (join_split slash t) as J. pose proof (split_free slash t) as F.
  assert (N : split_on slash t <> []) by (rewrite E; discriminate). destruct (exists_last N) as (l & b & L). rewrite L in *. rewrite removelast_last. apply Forall_app in F. destruct F as (_ & F). pose proof (Forall_inv F) as NI.
  destruct l as [|y l].
  - right. cbn in J. rewrite J in NI. now split.
  - left. exists b. split; [|exact NI]. rewrite <- join_snoc by discriminate. now symmetry.
Qed.
Lemma cut_fun (s : ascii) b b' : ~ In s b -> ~ In s b' -> forall a a', a ++ s :: b = a' ++ s :: b' -> a = a'.
Proof.
  intros N N'. induction a as [|x a IH]; intros [|y a'] E; cbn in E; [reflexivity| | |].
  - injection E as _ E. exfalso. apply N. rewrite E. apply in_or_app. right. now left.
  - injection E as _ E. exfalso. apply N'. rewrite <- E. apply in_or_app. right. now left.
  - injection E as -> E. f_equal. now apply IH.
Qed.
Lemma above_fun t a a' : above t a -> above t a' -> a = a'.
Proof.
  intros [(b & E & N)|(N & ->)] [(b' & E' & N')|(N' & ->)]; [apply (cut_fun slash b b' N N'); congruence| | |reflexivity].
  - exfalso. apply N'. rewrite E. apply in_or_app. right. now left.
  - exfalso. apply N. rewrite E'. apply in_or_app. right. now left.
Qed.

Section Proofs.
  Context (from_text : chars -> option spec_float) (from_hex : chars -> result spec_float).
  Context (ns : chars) (root : xml) (rf : refs) (OK : reference_dicts ns root = Ok rf).
  Context (ver : version) (strict : bool) (sort : sort_arg).
  Notation v4 := (ar4 ver).
  Notation reach := (reach ns root).
  Notation only := (only ns root).
  Notation nothing := (nothing ns root).
  Notation text_at := (text_at ns root).
  Notation valid := (valid root).
  Notation child := (child ns rf).
  Notation children := (children ns rf).
  Notation is_tag t n := (is_tag ns (txt t) (snd n)).
  Notation path_at := (path_at ns root).

  Lemma path_ok n t : valid n -> path_of rf n = Ok t -> t = path_at (fst n).
  Proof using OK. destruct n as [p e]. intros W H. unfold Prop_Arxml.valid in W. cbn [fst snd] in W. rewrite (path_get ns root rf OK p e W) in H. now injection H as <-. Qed.
  Lemma resolve_ok n ref base a : valid n -> (resolve ns rf n ref base = Ok a <-> stands_for ns root (fst n) ref base a).
  Proof using OK.
    destruct n as [p e]. intros W. unfold resolve, stands_for. rewrite <- starts_iff. destruct (starts_with_slash ref) eqn:S; [split; [intros [= <-]; left; now split|intros [(_ & ->)|(H & _)]; [reflexivity|now contradiction H]]|].
    rewrite (path_get ns root rf OK p e W). cbn [bind fst]. split.
    - destruct (closest _ _ _ _ _) as [t|] eqn:C; [|discriminate]. intros [= <-]. right. split; [discriminate|]. apply (closest_applies ns root rf OK) in C. destruct C as (k & A & F). exists k, t. exact (conj A (conj eq_refl F)).
    - intros [([=] & _)|(_ & k & t & A & -> & F)]. rewrite (proj2 (closest_applies ns root rf OK (path_at p) base t)); [reflexivity|]. now exists k.
  Qed.
  (** *** The participants *)
  Lemma nodes_ok r ecu pdus ms ms' : Forall valid pdus -> change_nodes rf (fun _ => added r ecu) pdus ms = Ok ms' ->
    all_grown (fun r' e p => exists q, In q pdus /\ only_event r ecu (path_at (fst q)) r' e p) ms ms'.
  Proof using OK.
    intros V. rewrite Forall_forall in V. unfold change_nodes. apply all_fold. intros q a b I H. apply bind_ok in H. destruct H as (path & P & H). injection H as <-. rewrite <- (path_ok q path (V q I) P). apply all_change.
  Qed.
  Definition group_event (ecu : chars) (g : node) : events := fun r e p => exists q, e = ecu /\ text_at g ["COMMUNICATION-DIRECTION"] (direction r) /\
    reach g (either v4 ["I-SIGNAL-I-PDUS"; "I-SIGNAL-I-PDU-REF-CONDITIONAL"; "I-SIGNAL-I-PDU"] ["I-PDU-REFS"; "I-PDU"]) q /\ p = path_at (fst q).
  Lemma group_ok ecu ms g ms' : valid g -> ecu_group ns rf ver ecu ms g = Ok ms' -> all_grown (group_event ecu g) ms ms'.
  Proof using OK.
    intros W H. unfold ecu_group in H. apply bind_ok in H. destruct H as (d & D & H). apply bind_ok in H. destruct H as (dir & T & H). apply bind_ok in H. destruct H as (pdus & C & H).
    pose proof (get_text ns root rf OK g _ d dir W D eq_refl T) as TD. change (text_at g ["COMMUNICATION-DIRECTION"] dir) in TD.
    assert (G : forallb good_atom (loc ver ["I-SIGNAL-I-PDUS"; "*I-SIGNAL-I-PDU-REF-CONDITIONAL"; "&I-SIGNAL-I-PDU"] ["I-PDU-REFS"; "*&I-PDU"]) = true) by (unfold loc; now destruct v4).
    pose proof (at_children ns root rf OK _ g pdus W C G) as I. rewrite either_bare in I. pose proof (children_valid ns root rf OK _ g pdus W C G) as V.
    assert (R : forall q, In q pdus <-> reach g (either v4 ["I-SIGNAL-I-PDUS"; "I-SIGNAL-I-PDU-REF-CONDITIONAL"; "I-SIGNAL-I-PDU"] ["I-PDU-REFS"; "I-PDU"]) q) by (intros q; rewrite I; unfold either; now destruct v4).
    assert (U : forall r, text_at g ["COMMUNICATION-DIRECTION"] (direction r) -> direction r = dir) by (intros r X; exact (text_fun ns root _ _ _ _ X TD)).
    destruct (is_text "IN" dir) eqn:E1; [apply is_text_iff in E1|destruct (is_text "OUT" dir) eqn:E2; [apply is_text_iff in E2|]].
    - pose proof (nodes_ok Receives ecu pdus ms ms' V H) as Q. revert Q. apply all_iff. intros r e p. unfold group_event. split.
      + intros (q & J & -> & -> & ->). exists q. rewrite E1 in TD. split; [reflexivity|]. split; [exact TD|]. split; [now apply R|reflexivity].
      + intros (q & -> & X & J & ->). apply U in X. destruct r; [rewrite E1 in X; discriminate|]. exists q. split; [now apply R|now repeat split].
    - pose proof (nodes_ok Sends ecu pdus ms ms' V H) as Q. revert Q. apply all_iff. intros r e p. unfold group_event. split.
      + intros (q & J & -> & -> & ->). exists q. rewrite E2 in TD. split; [reflexivity|]. split; [exact TD|]. split; [now apply R|reflexivity].
      + intros (q & -> & X & J & ->). apply U in X. destruct r; [|rewrite E2 in X; discriminate]. exists q. split; [now apply R|now repeat split].
    - injection H as <-. apply (all_iff none); [|apply all_none]. intros r e p. split; [intros []|]. intros (q & _ & X & _). apply U in X. destruct r; cbn in X; rewrite <- X in *; discriminate.
  Qed.
  Definition ecu_event (e0 : node) : events := fun r e p => exists g, ecu_names ns root e0 e /\
    reach e0 (either v4 ["ASSOCIATED-COM-I-PDU-GROUP-REFS"; "ASSOCIATED-COM-I-PDU-GROUP"] ["ASSOCIATED-I-PDU-GROUP-REFS"; "ASSOCIATED-I-PDU-GROUP"]) g /\ group_event e g r e p.
  Lemma ecu_name_ok e o t : valid e -> child e ["SHORT-NAME"] = Ok o -> stripped_text o = Ok t -> forall t', ecu_names ns root e t' <-> t' = t.
  Proof using OK.
    intros W C H t'. pose proof (at_child ns root rf OK _ e o W C eq_refl) as A. unfold stripped_text in H. destruct o as [k|]; [|discriminate]. destruct A as (_ & A). change (only e ["SHORT-NAME"] k) in A.
    assert (E : n_text k <> [] /\ strip_space (n_text k) = t) by (destruct (n_text k); [discriminate|injection H as <-; split; [discriminate|reflexivity]]). destruct E as (N & E). split.
    - intros (x & (k' & O & <-) & _ & TR). rewrite (only_fun ns root _ _ k' k O A) in TR. apply strip_trimmed in TR. rewrite <- TR. exact E.
    - intros ->. exists (n_text k). split; [now exists k|]. split; [exact N|now apply strip_trimmed].
  Qed.
  Lemma ecu_ok ms e ms' : valid e -> ecu_links ns rf ver ms e = Ok ms' -> all_grown (ecu_event e) ms ms'.
  Proof using OK.
    intros W H. unfold ecu_links in H. apply bind_ok in H. destruct H as (o & C & H). apply bind_ok in H. destruct H as (ecu & S & H). apply bind_ok in H. destruct H as (gs & CG & H).
    pose proof (ecu_name_ok e o ecu W C S) as N.
    assert (G : forallb good_atom (loc ver ["ASSOCIATED-COM-I-PDU-GROUP-REFS"; "*&ASSOCIATED-COM-I-PDU-GROUP"] ["ASSOCIATED-I-PDU-GROUP-REFS"; "*&ASSOCIATED-I-PDU-GROUP"]) = true) by (unfold loc; now destruct v4).
    pose proof (at_children ns root rf OK _ e gs W CG G) as I. rewrite either_bare in I. pose proof (children_valid ns root rf OK _ e gs W CG G) as V. rewrite Forall_forall in V.
    apply (all_iff (fun r e' p => exists g, In g gs /\ group_event ecu g r e' p)).
    - intros r e' p. unfold ecu_event, either in *. split.
      + intros (g & J & Q). assert (E : e' = ecu) by (destruct Q as (q & E & _); exact E). subst e'. exists g. split; [now apply N|]. split; [|exact Q]. apply I in J. now destruct v4.
      + intros (g & Q1 & Q2 & Q3). apply N in Q1. subst e'. exists g. split; [|exact Q3]. apply I. now destruct v4.
    - revert H. apply all_fold. intros g a b J. apply group_ok. now apply V.
  Qed.
  Definition nm_event (n : node) : events := fun r ecu p => exists k par a e q,
    only n ["CONTROLLER-REF"] k /\ above (x_text (snd k)) par /\ stands_for ns root (fst n) par None a /\ leads_to ns root a (Some (txt "ECU-INSTANCE")) e /\ text_at e ["SHORT-NAME"] ecu /\
    reach n match r with Sends => ["TX-NM-PDU-REFS"; "TX-NM-PDU"] | Receives => ["RX-NM-PDU-REFS"; "RX-NM-PDU"] end q /\ p = path_at (fst q).
  Lemma nm_ok ms n ms' : valid n -> nm_node_links ns rf ms n = Ok ms' -> all_grown (nm_event n) ms ms'.
  Proof using OK.
    intros W H. unfold nm_node_links in H. apply bind_ok in H. destruct H as (c & C & H). pose proof (at_child ns root rf OK _ n c W C eq_refl) as A. destruct c as [k|].
    - destruct A as (_ & A). change (only n ["CONTROLLER-REF"] k) in A. apply bind_ok in H. destruct H as (t & T & H). assert (ET : t = x_text (snd k)) by (unfold n_text in T; destruct (x_text (snd k)); [discriminate|now injection T as <-]). subst t. clear T.
      apply bind_ok in H. destruct H as (a & R & H). apply (resolve_ok n _ _ _ W) in R as R'.
      assert (U : forall k' par a', only n ["CONTROLLER-REF"] k' -> above (x_text (snd k')) par -> stands_for ns root (fst n) par None a' -> a' = a).
      { intros k' par a' O AB SF. rewrite (only_fun ns root _ _ k' k O A) in AB. rewrite (above_fun _ _ _ AB (above_ok _)) in SF. apply (resolve_ok n _ _ _ W) in SF. congruence. }
      destruct (look_up ns rf a (Some (txt "ECU-INSTANCE"))) as [e|] eqn:L.
      + apply (look_up_iff ns root rf OK) in L as L'. assert (VE : valid e) by apply L'. apply bind_ok in H. destruct H as (ecu & N & H). pose proof (get_name ns root rf OK e ecu VE N) as TN.
        apply bind_ok in H. destruct H as (rx & CR & H). apply bind_ok in H. destruct H as (m1 & H1 & H). apply bind_ok in H. destruct H as (tx & CT & H).
        pose proof (at_children ns root rf OK _ n rx W CR eq_refl) as IR. pose proof (at_children ns root rf OK _ n tx W CT eq_refl) as IT.
        pose proof (nodes_ok Receives ecu rx ms m1 (children_valid ns root rf OK _ n rx W CR eq_refl) H1) as G1. pose proof (nodes_ok Sends ecu tx m1 ms' (children_valid ns root rf OK _ n tx W CT eq_refl) H) as G2.
        revert G1 G2. apply all_trans. intros r e' p. split.
        * intros (k' & par & a' & x & q & O & AB & SF & LT & TX & RE & ->). rewrite (U k' par a' O AB SF) in LT. apply (look_up_iff ns root rf OK) in LT. rewrite L in LT. injection LT as <-. rewrite (text_fun ns root _ _ _ _ TX TN). destruct r.
          { right. exists q. split; [now apply IT|now repeat split]. }
          { left. exists q. split; [now apply IR|now repeat split]. }
        * intros [(q & J & -> & -> & ->)|(q & J & -> & -> & ->)]; exists k, (parent_path (x_text (snd k))), a, e, q; (split; [exact A|]); (split; [apply above_ok|]); (split; [exact R'|]); (split; [exact L'|]); (split; [exact TN|]); (split; [|reflexivity]); [now apply IR|now apply IT].
      + injection H as <-. apply (all_iff none); [|apply all_none]. intros r e' p. split; [intros []|]. intros (k' & par & a' & x & q & O & AB & SF & LT & _). rewrite (U k' par a' O AB SF) in LT. apply (look_up_iff ns root rf OK) in LT. congruence.
    - injection H as <-. apply (all_iff none); [|apply all_none]. intros r e' p. split; [intros []|]. intros (k' & par & a' & x & q & O & _). destruct (only_nothing ns root _ _ k' O A).
  Qed.
  Definition package_event (p0 : node) : events := fun r e p =>
    (exists x, reach p0 ["ELEMENTS"; "ECU-INSTANCE"] x /\ ecu_event x r e p) \/
    v4 = true /\ exists c n, reach p0 ["ELEMENTS"; "NM-CONFIG"; "NM-CLUSTERS"; "CAN-NM-CLUSTER"] c /\ reach c ["NM-NODES"; "CAN-NM-NODE"] n /\ nm_event n r e p.
  Lemma package_ok ms p ms' : valid p -> package_links ns rf ver ms p = Ok ms' -> all_grown (package_event p) ms ms'.
  Proof using OK.
    intros W H. unfold package_links in H. apply bind_ok in H. destruct H as (es & C & H). apply bind_ok in H. destruct H as (m1 & H1 & H).
    pose proof (at_children ns root rf OK _ p es W C eq_refl) as I. pose proof (children_valid ns root rf OK _ p es W C eq_refl) as V. rewrite Forall_forall in V.
    apply (all_fold _ ecu_event) in H1; [|intros e a b J; apply ecu_ok; now apply V].
    assert (H2 : all_grown (fun r e p' => v4 = true /\ exists c n, reach p ["ELEMENTS"; "NM-CONFIG"; "NM-CLUSTERS"; "CAN-NM-CLUSTER"] c /\ reach c ["NM-NODES"; "CAN-NM-NODE"] n /\ nm_event n r e p') m1 ms').
    { unfold nm_links in H. destruct v4.
      - apply bind_ok in H. destruct H as (cs & CC & H). pose proof (at_children ns root rf OK _ p cs W CC eq_refl) as IC. pose proof (children_valid ns root rf OK _ p cs W CC eq_refl) as VC. rewrite Forall_forall in VC.
        apply (all_fold _ (fun c r e p' => exists n, reach c ["NM-NODES"; "CAN-NM-NODE"] n /\ nm_event n r e p')) in H.
        + revert H. apply all_iff. intros r e p'. split.
          * intros (c & J & n & R & E). split; [reflexivity|]. exists c, n. split; [now apply IC|now split].
          * intros (_ & c & n & J & R & E). exists c. split; [now apply IC|]. now exists n.
        + intros c a b J Q. apply bind_ok in Q. destruct Q as (l & CN & Q). pose proof (at_children ns root rf OK _ c l (VC c J) CN eq_refl) as IN. pose proof (children_valid ns root rf OK _ c l (VC c J) CN eq_refl) as VN. rewrite Forall_forall in VN.
          apply (all_fold _ nm_event) in Q; [|intros n a' b' J'; apply nm_ok; now apply VN]. revert Q. apply all_iff. intros r e p'. split; intros (n & X & Y); exists n; (split; [now apply IN|exact Y]).
      - injection H as <-. apply (all_iff none); [|apply all_none]. intros r e p'. split; [intros []|now intros (? & _)]. }
    revert H1 H2. apply all_trans. intros r e p'. unfold package_event. apply or_iff_compat_r. split; intros (x & X & Y); exists x; (split; [now apply I|exact Y]).
  Qed.
  Lemma links_ok : forall d l ms ms', links ns rf ver d l ms = Ok ms' ->
    match l with Some l => valid l -> all_grown (fun r e p => exists q, searched ns root v4 l q /\ package_event q r e p) ms ms' | None => all_grown none ms ms' end.
  Proof using OK.
    induction d as [|d IH]; intros [l|] ms ms' H; cbn [links] in H; try (injection H as <-; apply all_none); [discriminate|]. intros W. apply bind_ok in H. destruct H as (ps & C & H).
    pose proof (at_children ns root rf OK _ l ps W C eq_refl) as I. pose proof (children_valid ns root rf OK _ l ps W C eq_refl) as V. rewrite Forall_forall in V.
    apply (all_fold _ (fun p r e path => package_event p r e path \/ exists s q, only p [either v4 "AR-PACKAGES" "SUB-PACKAGES"] s /\ searched ns root v4 s q /\ package_event q r e path)) in H.
    - revert H. apply all_iff. intros r e path. split.
      + intros (p & J & [E|(s & q & O & S & E)]); apply I in J; [exists p; split; [now apply se_here|exact E]|exists q; split; [exact (se_deeper ns root v4 l p s q J O S)|exact E]].
      + intros (q & S & E). inversion S as [l' p R|l' p s q' R O S']; subst; [exists q; split; [now apply I|now left]|exists p; split; [now apply I|right; exists s, q; now split]].
    - intros p a b J Q. apply bind_ok in Q. destruct Q as (m1 & H1 & Q). apply bind_ok in Q. destruct Q as (s & CS & Q). specialize (V p J). apply package_ok in H1; [|exact V]. apply IH in Q.
      assert (GA : forallb good_atom [if v4 then "AR-PACKAGES" else "SUB-PACKAGES"] = true) by now destruct v4.
      pose proof (at_child ns root rf OK _ p s V CS GA) as A. assert (B : map bare [if v4 then "AR-PACKAGES" else "SUB-PACKAGES"] = [either v4 "AR-PACKAGES" "SUB-PACKAGES"]) by now destruct v4. rewrite B in A.
      destruct s as [s|].
      + destruct A as (VS & A). specialize (Q VS). revert H1 Q. apply all_trans. intros r e path. apply or_iff_compat_l. split.
        * intros (s' & q & O & S & E). rewrite (only_fun ns root _ _ s' s O A) in S. now exists q.
        * intros (q & S & E). exists s, q. split; [exact A|now split].
      + revert H1 Q. apply all_trans. intros r e path. apply or_iff_compat_l. split; [intros (s' & q & O & _); destruct (only_nothing ns root _ _ s' O A)|intros []].
  Qed.
  (** *** The later passes add nobody *)
  Lemma protect_grown ms p ms' : package_protect from_text from_hex ns rf ms p = Ok ms' -> all_grown none ms ms'.
  Proof using.
    assert (FO : forall {T} (f : list amessage -> T -> result (list amessage)), (forall ms x ms', f ms x = Ok ms' -> all_grown none ms ms') -> forall l ms ms', foldM f l ms = Ok ms' -> all_grown none ms ms').
    { intros T f K l ms0 ms1 H. apply (all_fold _ (fun _ => none)) in H; [|intros x a b _; apply K]. revert H. apply all_iff. intros r e p'. split; [now intros (? & _ & [])|intros []]. }
    intros H. unfold package_protect in H. apply bind_ok in H. destruct H as (l & _ & H). revert H. apply FO. intros m1 x m2 H. unfold protect in H. apply bind_ok in H. destruct H as (po & _ & H).
    destruct po as [prof|]; [|injection H as <-; apply all_none]. apply bind_ok in H. destruct H as (c & _ & H). apply bind_ok in H. destruct H as (ds & _ & H). apply bind_ok in H. destruct H as (ids & _ & H). apply bind_ok in H. destruct H as (pdus & _ & H).
    revert H. unfold change_nodes. apply FO. intros m3 q m4 H. apply bind_ok in H. destruct H as (path & _ & H). injection H as <-. unfold change_pdu. apply f2_map. intros m. cbn.
    assert (G : forall b i, grown none i (if mem_text path (sp_paths (am_spec i)) then (if b : bool then i else set_e2e (mkE2E (opt_text c) ids (match sp_secoc (am_spec i) with Some s => so_payload s | None => m_length (am_core i) end)) i) else i)).
    { intros b i. destruct (mem_text path (sp_paths (am_spec i))), b; exact (grown_none i). }
    split; [apply G|]. split; [|reflexivity]. apply f2_map. intros i. apply (G false).
  Qed.
  (** *** The paths of PDUs, and nobody receives a signal before that *)
  Definition fresh (s : asignal) : Prop := a_receivers s = [].
  Notation beneath := (beneath ns root v4).
  Notation points_to := (points_to ns root).
  Lemma new_fresh name st len big sg conv mn mx ini inv u c ch mux s : new_signal name st len big sg conv mn mx ini inv u c ch mux = Ok s -> fresh s.
  Proof using. unfold new_signal. intros H. apply bind_ok in H. destruct H as (a & _ & H). apply bind_ok in H. destruct H as (b & _ & H). now injection H as <-. Qed.
  Lemma signal_fresh m o : load_signal from_text from_hex ns rf ver m = Ok o -> match o with Some s => fresh s | None => True end.
  Proof using.
    unfold load_signal. intros H. apply bind_ok in H. destruct H as (x & _ & H). destruct x as [i|]; [|injection H as <-; exact I]. apply bind_ok in H. destruct H as (sys & _ & H).
    match type of H with (if ?b then _ else _) = _ => destruct b; [injection H as <-; exact I|] end.
    do 6 (apply bind_ok in H; destruct H as (? & _ & H)). apply bind_ok in H. destruct H as (((((((mn & mx) & factor) & offset) & choices) & unit) & com) & _ & H).
    do 3 (apply bind_ok in H; destruct H as (? & _ & H)). apply bind_ok in H. destruct H as (s & S & H). injection H as <-. exact (new_fresh _ _ _ _ _ _ _ _ _ _ _ _ _ _ _ S).
  Qed.
  Lemma signals_fresh pdu l : load_pdu_signals from_text from_hex ns rf ver pdu = Ok l -> Forall fresh l.
  Proof using.
    unfold load_pdu_signals. intros H. apply bind_ok in H. destruct H as (a & _ & H). apply bind_ok in H. destruct H as (b & _ & H). apply bind_ok in H. destruct H as (os & M & H). injection H as <-.
    apply mapM_ok in M. induction M as [|m o ms os E M IH]; [constructor|]. cbn. apply signal_fresh in E. destruct o; [now constructor|exact IH].
  Qed.
  Lemma secured_fresh name pdu sp x : load_secured from_text from_hex ns rf name pdu sp = Ok x -> Forall fresh (fst x) /\ sp_paths (snd x) = sp_paths sp.
  Proof using.
    unfold load_secured. intros H. do 14 (apply bind_ok in H; destruct H as (? & _ & H)). apply bind_ok in H. destruct H as (fs & F & H). apply bind_ok in H. destruct H as (au & A & H). injection H as <-. split; [|reflexivity]. cbn [fst]. apply Forall_app. split.
    - unfold freshness_signals in F. destruct x13 as [f|]; [|injection F as <-; constructor]. destruct (0 <? f); [|injection F as <-; constructor]. apply bind_ok in F. destruct F as (s & S & F). injection F as <-. constructor; [exact (new_fresh _ _ _ _ _ _ _ _ _ _ _ _ _ _ _ S)|constructor].
    - unfold authenticator_signals in A. destruct x9 as [a|]; [|injection A as <-; constructor]. destruct (0 <? a); [|injection A as <-; constructor]. destruct x13 as [f|]; [|discriminate]. apply bind_ok in A. destruct A as (s & S & A). injection A as <-. constructor; [exact (new_fresh _ _ _ _ _ _ _ _ _ _ _ _ _ _ _ S)|constructor].
  Qed.
  Lemma tail_fresh name pdu sp x : (if has_tag ns "SECURED-I-PDU" pdu then load_secured from_text from_hex ns rf name pdu sp else Ok ([], sp)) = Ok x -> Forall fresh (fst x) /\ sp_paths (snd x) = sp_paths sp.
  Proof using. destruct (has_tag _ _ _); [apply secured_fresh|]. intros [= <-]. split; [constructor|reflexivity]. Qed.
  Lemma mux_fresh sel v s : fresh s -> fresh (set_mux sel v s).
  Proof using. unfold fresh, set_mux. now destruct (s_mux_sig (a_sig s)). Qed.
  Lemma pointed n r path : valid n -> absolute_path ns rf n (n_text r) (n_attr r "BASE") = Ok path -> forall path', points_to n r path' <-> path' = path.
  Proof using OK.
    intros W H path'. destruct (absolute_nonempty ns rf n _ _ _ H) as (N & _). unfold points_to. split.
    - intros (base & A & _ & S). rewrite (attr_fun _ _ _ _ A (attr_get r "BASE")) in S. change (x_text (snd r)) with (n_text r) in S. apply (stands_iff ns root rf OK n (n_text r) _ _ W N) in S. rewrite H in S. now injection S as <-.
    - intros ->. exists (n_attr r "BASE"). split; [apply attr_get|]. split; [exact N|]. exact (proj1 (stands_iff ns root rf OK n _ _ _ W N) H).
  Qed.
  Section Step.
    Context (load : node -> Z -> result pdu_load) (frame : chars).
    Context (IH : forall q next r, valid q -> load q next = Ok r -> Forall fresh (p_signals r) /\ forall path, In path (p_paths r) <-> beneath q path).
    Definition from_alternative (alt : node) (path : chars) : Prop :=
      (exists r, only alt ["I-PDU-REF"] r /\ points_to alt r path) \/ exists q, only alt ["I-PDU"] q /\ beneath q path.
    Lemma alternative_paths sel pos len next st alt st' : valid alt -> load_alternative from_text from_hex ns rf load sel pos len next st alt = Ok st' ->
      Forall fresh (x_signals st) -> Forall fresh (x_signals st') /\ forall path, In path (x_paths st') <-> In path (x_paths st) \/ from_alternative alt path.
    Proof using OK IH.
      intros W H FS. unfold load_alternative in H. apply bind_ok in H. destruct H as (vo & _ & H). apply bind_ok in H. destruct H as (v & _ & H). apply bind_ok in H. destruct H as (po & CP & H).
      apply bind_ok in H. destruct H as (ro & CR & H). apply bind_ok in H. destruct H as (path & A & H). apply bind_ok in H. destruct H as (r & L & H). apply bind_ok in H. destruct H as (io & _ & H). apply bind_ok in H. destruct H as (ini & _ & H).
      destruct po as [q|]; [|discriminate]. destruct (at_child ns root rf OK _ alt _ W CP eq_refl) as (VQ & OQ). change (only alt ["I-PDU"] q) in OQ.
      destruct ro as [rr|]; [|discriminate]. destruct (at_child ns root rf OK _ alt _ W CR eq_refl) as (VR & OR). change (only alt ["I-PDU-REF"] rr) in OR.
      pose proof (pointed alt rr path W A) as PT. destruct (IH q next r VQ L) as (FQ & PQ).
      destruct (filter (fun s => s_start (a_sig s) =? pos) (p_signals r)) as [|d [|? ?]]; [discriminate| |discriminate]. destruct (s_length (a_sig d) =? len); [|discriminate]. injection H as <-. cbn [x_signals x_paths]. split.
      - apply Forall_app. split; [exact FS|]. rewrite Forall_forall in *. intros s I. apply in_map_iff in I. destruct I as (s' & <- & I). apply mux_fresh, FQ. now apply filter_In in I.
      - intros p. rewrite in_app_iff. apply or_iff_compat_l. cbn [In]. rewrite PQ. unfold from_alternative. split.
        + intros [<-|B]; [left; exists rr; split; [exact OR|now apply PT]|right; now exists q].
        + intros [(r' & O & P)|(q' & O & B)]; [left; rewrite (only_fun ns root _ _ r' rr O OR) in P; symmetry; now apply PT|right; now rewrite (only_fun ns root _ _ q q' OQ O)].
    Qed.
    Lemma alternatives_paths sel pos len next alts : Forall valid alts -> forall st st', foldM (load_alternative from_text from_hex ns rf load sel pos len next) alts st = Ok st' ->
      Forall fresh (x_signals st) -> Forall fresh (x_signals st') /\ forall path, In path (x_paths st') <-> In path (x_paths st) \/ exists alt, In alt alts /\ from_alternative alt path.
    Proof using OK IH.
      induction 1 as [|alt alts W _ IHl]; intros st st' H FS.
      - injection H as <-. split; [exact FS|]. intros p. split; [now left|]. intros [I|(a & [] & _)]. exact I.
      - cbn in H. apply bind_ok in H. destruct H as (s1 & H1 & H). destruct (alternative_paths _ _ _ _ _ _ _ W H1 FS) as (F1 & P1). destruct (IHl s1 st' H F1) as (F2 & P2). split; [exact F2|]. intros p. rewrite P2, P1. split.
        + intros [[I|F]|(a & I & F)]; [now left|right; exists alt; split; [now left|exact F]|right; exists a; split; [now right|exact F]].
        + intros [I|(a & [<-|I] & F)]; [left; now left|left; now right|right; now exists a].
    Qed.
    Definition from_static (pdu r : node) (path : chars) : Prop :=
      exists q path' dest a', points_to pdu r path' /\ attr_says (snd r) "DEST" dest /\ stands_for ns root (fst pdu) path' None a' /\ leads_to ns root a' dest q /\ (path = path' \/ beneath q path).
    Lemma static_paths pdu next r out : valid pdu -> load_static ns rf load pdu next r = Ok out -> Forall fresh (fst out) /\ forall path, In path (snd out) <-> from_static pdu r path.
    Proof using OK IH.
      intros W H. unfold load_static in H. apply bind_ok in H. destruct H as (a & A & H). apply bind_ok in H. destruct H as (o & F & H). apply bind_ok in H. destruct H as (l & L & H). injection H as <-.
      destruct o as [q|]; [|discriminate]. unfold follow in F. apply bind_ok in F. destruct F as (a' & A' & F). injection F as F. destruct (absolute_nonempty ns rf _ _ _ _ A) as (_ & N2).
      apply (look_up_iff ns root rf OK) in F as LT. pose proof (pointed pdu r a W A) as PT. destruct (IH q next l) as (FQ & PQ); [apply LT|exact L|]. split; [exact FQ|]. intros p. cbn [snd In]. rewrite PQ. split.
      - intros B. exists q, a, (n_attr r "DEST"), a'. split; [now apply PT|]. split; [apply attr_get|]. split; [now apply (stands_iff ns root rf OK pdu _ _ _ W N2)|]. split; [exact LT|]. destruct B as [<-|B]; [now left|now right].
      - intros (q' & p' & dest & b & P & D & S & LT' & B). apply PT in P. subst p'. rewrite (attr_fun _ _ _ _ D (attr_get r "DEST")) in LT'. apply (stands_iff ns root rf OK pdu _ _ _ W N2) in S. rewrite S in A'. injection A' as ->.
        apply (look_up_iff ns root rf OK) in LT'. rewrite LT' in F. injection F as ->. destruct B as [->|B]; [now left|now right].
    Qed.
    Lemma multiplexed_paths pdu next out : valid pdu -> multiplexed ns pdu -> load_multiplexed from_text from_hex ns rf ver load frame pdu next = Ok out ->
      Forall fresh (fst (fst out)) /\ forall path, In path (snd out) <-> beneath pdu path.
    Proof using OK IH.
      intros W MX M. unfold load_multiplexed in M. apply bind_ok in M. destruct M as (po & _ & M). apply bind_ok in M. destruct M as (pos & _ & M). apply bind_ok in M. destruct M as (lo' & _ & M). apply bind_ok in M. destruct M as (len & _ & M).
      apply bind_ok in M. destruct M as (bo & _ & M). apply bind_ok in M. destruct M as (big & _ & M). apply bind_ok in M. destruct M as (alts & CA & M). apply bind_ok in M. destruct M as (st & F & M). apply bind_ok in M. destruct M as (conv & _ & M).
      apply bind_ok in M. destruct M as (sel & SE & M). apply bind_ok in M. destruct M as (refs & CR & M). apply bind_ok in M. destruct M as (statics & MM & M). injection M as <-. cbn [fst snd].
      assert (G1 : forallb good_atom (loc ver ["DYNAMIC-PARTS"; "*DYNAMIC-PART"; "DYNAMIC-PART-ALTERNATIVES"; "*DYNAMIC-PART-ALTERNATIVE"] ["DYNAMIC-PART"; "DYNAMIC-PART-ALTERNATIVES"; "*DYNAMIC-PART-ALTERNATIVE"]) = true) by (unfold loc; now destruct v4).
      assert (G2 : forallb good_atom (loc ver ["STATIC-PARTS"; "*STATIC-PART"; "I-PDU-REF"] ["STATIC-PART"; "I-PDU-REF"]) = true) by (unfold loc; now destruct v4).
      pose proof (at_children ns root rf OK _ pdu alts W CA G1) as IA. rewrite either_bare in IA. pose proof (children_valid ns root rf OK _ pdu alts W CA G1) as VA.
      pose proof (at_children ns root rf OK _ pdu refs W CR G2) as IR. rewrite either_bare in IR.
      destruct (alternatives_paths _ _ _ _ alts VA _ st F (Forall_nil _)) as (FA & PA).
      assert (ST : Forall fresh (List.concat (map fst statics)) /\ forall path, In path (List.concat (map snd statics)) <-> exists r, In r refs /\ from_static pdu r path).
      { apply mapM_ok in MM. clear - MM W OK IH. induction MM as [|r o rs os E MM IHm]; [split; [constructor|]; intros p; split; [intros []|now intros (? & [] & _)]|]. destruct (static_paths pdu (next + 1) r o W E) as (F1 & P1). destruct IHm as (F2 & P2). cbn. split.
        - apply Forall_app. now split.
        - intros p. rewrite in_app_iff, P1, P2. split.
          + intros [S|(r' & I & S)]; [exists r; split; [now left|exact S]|exists r'; split; [now right|exact S]].
          + intros (r' & [<-|I] & S); [now left|right; now exists r']. }
      destruct ST as (FT & PT). split.
      - constructor; [reflexivity|]. apply Forall_app. now split.
      - intros p. rewrite in_app_iff, PA, PT. split.
        + intros [[[]|(alt & I & [(r & O & P)|(q & O & B)])]|(r & I & q & p' & dest & a' & P & D & S & LT & B)].
          * apply IA in I. apply (be_alternative _ _ _ pdu alt r p MX); [unfold alternative, either in *; now destruct v4|exact O|exact P].
          * apply IA in I. apply (be_dynamic _ _ _ pdu alt q p MX); [unfold alternative, either in *; now destruct v4|exact O|exact B].
          * apply IR in I. assert (SR : static_ref ns root v4 pdu r q p').
            { split; [unfold either in *; now destruct v4|]. split; [exact P|]. exists dest, a'. exact (conj D (conj S LT)). }
            destruct B as [->|B]; [exact (be_part _ _ _ pdu r q p' MX SR)|exact (be_static _ _ _ pdu r q p p' MX SR B)].
        + assert (RS : forall r q p', static_ref ns root v4 pdu r q p' -> p = p' \/ beneath q p -> exists r, In r refs /\ from_static pdu r p).
          { intros r q p' (R & P & dest & a' & D & S & LT) B. exists r. split; [apply IR; unfold either in *; now destruct v4|]. exists q, p', dest, a'. exact (conj P (conj D (conj S (conj LT B)))). }
          destruct MX as ((N1 & N2) & T). intros B. inversion B as [pdu' c path T1 _ _ _|pdu' q path _ T2 _ _|pdu' alt r path _ A O P|pdu' alt q path _ A O B'|pdu' r q path _ SR|pdu' r q path path' _ SR B']; subst; try contradiction.
          * left. right. exists alt. split; [apply IA; unfold alternative, either in *; now destruct v4|]. left. now exists r.
          * left. right. exists alt. split; [apply IA; unfold alternative, either in *; now destruct v4|]. right. now exists q.
          * right. apply (RS r q p SR). now left.
          * right. apply (RS r q path' SR). now right.
    Qed.
    Definition new_part (c : node) (i : ainfo) : Prop :=
      am_senders i = [] /\ Forall fresh (am_signals i) /\ forall path, In path (sp_paths (am_spec i)) <-> part_path ns root v4 c path.
    Lemma part_new next c out : valid c -> load_contained from_text from_hex ns rf sort load next c = Ok out ->
      new_part c (fst out) /\ forall path, In path (snd out) <-> part_path ns root v4 c path.
    Proof using OK IH.
      intros W H. unfold load_contained in H. apply bind_ok in H. destruct H as (name & _ & H). apply bind_ok in H. destruct H as (lo & _ & H). apply bind_ok in H. destruct H as (len & _ & H).
      apply bind_ok in H. destruct H as (ho & _ & H). apply bind_ok in H. destruct H as (h & _ & H). apply bind_ok in H. destruct H as (com & _ & H). apply bind_ok in H. destruct H as (u & _ & H). apply bind_ok in H. destruct H as (r & R & H).
      destruct (p_contained r); [discriminate|]. apply bind_ok in H. destruct H as (here & P & H). apply bind_ok in H. destruct H as (e & _ & H). apply bind_ok in H. destruct H as (x & X & H). apply bind_ok in H. destruct H as (i & I & H).
      injection H as <-. apply bind_ok in I. destruct I as (m & M & I). injection I as <-. cbn [fst snd]. destruct (IH c next r W R) as (FQ & PQ). destruct (tail_fresh _ _ _ _ X) as (FX & PX). apply (path_ok c here W) in P.
      assert (E : forall path, In path (p_paths r ++ [here]) <-> part_path ns root v4 c path).
      { intros p. rewrite in_app_iff, PQ. unfold part_path. cbn [In]. rewrite P. split; [intros [B|[<-|[]]]; [now right|now left]|intros [->|B]; [right; now left|now left]]. }
      split; [|exact E]. split; [reflexivity|]. split; [apply Forall_app; now split|]. cbn [am_spec]. rewrite PX. exact E.
    Qed.
    Lemma step_paths pdu next r : valid pdu -> load_pdu_step from_text from_hex ns rf ver sort load frame pdu next = Ok r ->
      Forall fresh (p_signals r) /\ forall path, In path (p_paths r) <-> beneath pdu path.
    Proof using OK IH.
      intros W H. unfold load_pdu_step in H. destruct (has_tag ns "CONTAINER-I-PDU" pdu) eqn:T1.
      { apply tag_iff in T1. apply bind_ok in H. destruct H as (lo & _ & H). apply bind_ok in H. destruct H as (? & _ & H). apply bind_ok in H. destruct H as (ho & CH & H). apply bind_ok in H. destruct H as (ht & HT & H).
        pose proof (get_text ns root rf OK pdu _ ho ht W CH eq_refl HT) as TX. change (text_at pdu ["HEADER-TYPE"] ht) in TX. destruct (is_text "SHORT-HEADER" ht) eqn:Q.
        - apply is_text_iff in Q. subst ht. apply bind_ok in H. destruct H as (cs & C & H). apply bind_ok in H. destruct H as (l & M & H). injection H as <-. cbn [p_signals p_paths]. split; [constructor|].
          pose proof (at_children ns root rf OK _ pdu cs W C eq_refl) as IC. pose proof (children_valid ns root rf OK _ pdu cs W C eq_refl) as VC.
          assert (P : forall path, In path (List.concat (map snd l)) <-> exists c, In c cs /\ part_path ns root v4 c path).
          { apply mapM_ok in M. clear - M VC OK IH. induction M as [|c o cs l E M IHm]; [intros p; split; [intros []|now intros (? & [] & _)]|]. inversion VC as [|? ? V1 V2]; subst. destruct (part_new next c o V1 E) as (_ & P1). intros p. cbn. rewrite in_app_iff, P1, (IHm V2). split.
            - intros [S|(r' & I & S)]; [exists c; split; [now left|exact S]|exists r'; split; [now right|exact S]].
            - intros (r' & [<-|I] & S); [now left|right; now exists r']. }
          intros p. rewrite P. split.
          + intros (c & I & B). apply IC in I. exact (be_contained _ _ _ pdu c p T1 TX I B).
          + intros B. inversion B as [pdu' c path _ _ I B'|pdu' q path N _ _ _|pdu' alt r path ((N & _) & _) A O P'|pdu' alt q path ((N & _) & _) A O B'|pdu' r q path ((N & _) & _) SR|pdu' r q path path' ((N & _) & _) SR B']; subst; try contradiction. exists c. split; [now apply IC|exact B'].
        - injection H as <-. split; [constructor|]. intros p. split; [intros []|].
          intros B. inversion B as [pdu' c path _ TX' I B'|pdu' q path N _ _ _|pdu' alt r path ((N & _) & _) A O P'|pdu' alt q path ((N & _) & _) A O B'|pdu' r q path ((N & _) & _) SR|pdu' r q path path' ((N & _) & _) SR B']; subst; try contradiction.
          rewrite (text_fun ns root _ _ _ _ TX TX') in Q. discriminate. }
      apply tag_not in T1. destruct (has_tag ns "SECURED-I-PDU" pdu) eqn:T2.
      { apply tag_iff in T2. apply bind_ok in H. destruct H as (pp & CP & H). destruct pp as [q|]; [|discriminate]. apply bind_ok in H. destruct H as (l & L & H). apply bind_ok in H. destruct H as (here & P & H). injection H as <-. cbn [p_signals p_paths].
        unfold payload_of in CP. destruct (at_child ns root rf OK _ pdu _ W CP eq_refl) as (VQ & OQ). change (only pdu ["PAYLOAD"; "I-PDU"] q) in OQ. destruct (IH q next l VQ L) as (FQ & PQ). apply (path_ok q here VQ) in P. split; [exact FQ|].
        intros p. rewrite in_app_iff, PQ. cbn [In]. rewrite P. split.
        - intros B. apply (be_payload _ _ _ pdu q p T1 T2 OQ). destruct B as [B|[<-|[]]]; [now right|now left].
        - intros B. inversion B as [pdu' c path N _ _ _|pdu' q' path _ _ OQ' B'|pdu' alt r path ((_ & N) & _) A O P'|pdu' alt q' path ((_ & N) & _) A O B'|pdu' r q' path ((_ & N) & _) SR|pdu' r q' path path' ((_ & N) & _) SR B']; subst; try contradiction.
          rewrite (only_fun ns root _ _ q' q OQ' OQ) in B'. destruct B' as [->|B']; [right; now left|now left]. }
      apply tag_not in T2. assert (O : ordinary ns pdu) by now split.
      apply bind_ok in H. destruct H as (lo & _ & H). apply bind_ok in H. destruct H as (? & _ & H). apply bind_ok in H. destruct H as (cyc & _ & H). apply bind_ok in H. destruct H as (sigs & S & H). apply signals_fresh in S.
      destruct (has_tag ns "MULTIPLEXED-I-PDU" pdu) eqn:T3.
      - apply tag_iff in T3. apply bind_ok in H. destruct H as (((ms & mc) & mp) & M & H). injection H as <-. cbn [p_signals p_paths]. destruct (multiplexed_paths pdu next _ W (conj O T3) M) as (F1 & P1). split; [apply Forall_app; now split|exact P1].
      - apply tag_not in T3. injection H as <-. split; [exact S|]. intros p. split; [intros []|]. destruct O as (N1 & N2).
        intros B. inversion B as [pdu' c path N _ _ _|pdu' q path _ N _ _|pdu' alt r path (_ & N) A O P'|pdu' alt q path (_ & N) A O B'|pdu' r q path (_ & N) SR|pdu' r q path path' (_ & N) SR B']; subst; contradiction.
    Qed.
  End Step.
  Lemma paths_ok k frame : forall pdu next r, valid pdu -> load_pdu from_text from_hex ns rf ver sort k frame pdu next = Ok r -> Forall fresh (p_signals r) /\ forall path, In path (p_paths r) <-> beneath pdu path.
  Proof using OK. induction k as [|k IH]; intros pdu next r W H; [discriminate|]. exact (step_paths _ frame (fun q next r V L => IH q next r V L) pdu next r W H). Qed.
  Lemma parts_new frame : forall k pdu r, valid pdu -> load_pdu from_text from_hex ns rf ver sort k frame pdu 1 = Ok r ->
    exists cs, Forall2 new_part cs (parts_of r) /\ forall c, In c cs <-> contained ns root pdu c.
  Proof using OK.
    induction k as [|k IH]; intros pdu r W H; [discriminate|]. cbn [load_pdu] in H. unfold load_pdu_step in H. destruct (has_tag ns "CONTAINER-I-PDU" pdu) eqn:T1.
    - apply tag_iff in T1. apply bind_ok in H. destruct H as (lo & _ & H). apply bind_ok in H. destruct H as (? & _ & H). apply bind_ok in H. destruct H as (ho & CH & H). apply bind_ok in H. destruct H as (ht & HT & H).
      pose proof (get_text ns root rf OK pdu _ ho ht W CH eq_refl HT) as TX. change (text_at pdu ["HEADER-TYPE"] ht) in TX. destruct (is_text "SHORT-HEADER" ht) eqn:Q.
      + apply is_text_iff in Q. subst ht. apply bind_ok in H. destruct H as (cs & C & H). apply bind_ok in H. destruct H as (l & M & H). injection H as <-. unfold parts_of. cbn [p_contained].
        pose proof (at_children ns root rf OK _ pdu cs W C eq_refl) as IC. pose proof (children_valid ns root rf OK _ pdu cs W C eq_refl) as VC. exists cs. split.
        * apply mapM_ok in M. clear - M VC OK. induction M as [|c o cs l E M IH]; [constructor|]. inversion VC; subst. constructor; [exact (proj1 (part_new _ (paths_ok k frame) 1 c o ltac:(assumption) E))|now apply IH].
        * intros c. rewrite IC. split; [intros R; now apply con_here|]. intros R. inversion R; subst; [assumption|contradiction].
      + injection H as <-. exists []. split; [constructor|]. intros c. split; [intros []|]. intros R. inversion R as [pdu' c' _ TX' _|pdu' q c' N _ _ _]; subst; [|contradiction].
        rewrite (text_fun ns root _ _ _ _ TX TX') in Q. discriminate.
    - apply tag_not in T1. destruct (has_tag ns "SECURED-I-PDU" pdu) eqn:T2.
      + apply tag_iff in T2. apply bind_ok in H. destruct H as (pp & CP & H). destruct pp as [q|]; [|discriminate]. apply bind_ok in H. destruct H as (l & L & H). apply bind_ok in H. destruct H as (here & _ & H). injection H as <-.
        unfold payload_of in CP. destruct (at_child ns root rf OK _ pdu _ W CP eq_refl) as (VQ & OQ). change (only pdu ["PAYLOAD"; "I-PDU"] q) in OQ. destruct (IH q l VQ L) as (cs & F & I). exists cs. split; [exact F|].
        intros c. rewrite I. split; [intros R; exact (con_secured _ _ pdu q c T1 T2 OQ R)|]. intros R. inversion R as [pdu' c' N _ _|pdu' q' c' _ _ O' R']; subst; [contradiction|]. now rewrite (only_fun ns root _ _ q q' OQ O').
      + apply tag_not in T2. assert (E : p_contained r = None).
        { apply bind_ok in H. destruct H as (lo & _ & H). apply bind_ok in H. destruct H as (? & _ & H). apply bind_ok in H. destruct H as (cyc & CY & H). apply bind_ok in H. destruct H as (sigs & S & H).
          destruct (has_tag ns "MULTIPLEXED-I-PDU" pdu); [|now injection H as <-]. apply bind_ok in H. destruct H as (((? & ?) & ?) & _ & H). now injection H as <-. }
        exists []. unfold parts_of. rewrite E. split; [constructor|]. intros c. split; [intros []|]. intros R. inversion R; subst; contradiction.
  Qed.
  (** *** Messages *)
  Definition new_message (trig : node) (m : amessage) : Prop :=
    am_big_header m = true /\ exists frame, only trig ["FRAME"] frame /\
      (nothing frame ["PDU-TO-FRAME-MAPPINGS"; "PDU-TO-FRAME-MAPPING"; "PDU"] /\ am_senders (am_info m) = [] /\ am_signals (am_info m) = [] /\ sp_paths (am_spec (am_info m)) = [] /\ am_contained m = [] \/
       exists pdu, mapped ns root frame pdu /\ (am_senders (am_info m) = [] /\ Forall fresh (am_signals (am_info m)) /\ forall path, In path (sp_paths (am_spec (am_info m))) <-> frame_path ns root v4 frame pdu path) /\
         exists cs, Forall2 new_part cs (am_contained m) /\ forall c, In c cs <-> contained ns root pdu c).
  Lemma message_new limit bus trig m : valid trig -> load_message from_text from_hex ns rf ver strict sort limit bus trig = Ok m -> new_message trig m.
  Proof using OK.
    intros W H. unfold load_message in H. apply bind_ok in H. destruct H as (fo & CF & H). apply bind_ok in H. destruct H as (frame & F & H). destruct fo as [f|]; [|discriminate]. injection F as ->.
    destruct (at_child ns root rf OK _ trig _ W CF eq_refl) as (VF & OF). change (only trig ["FRAME"] frame) in OF.
    apply bind_ok in H. destruct H as (name & _ & H). apply bind_ok in H. destruct H as (ido & _ & H). apply bind_ok in H. destruct H as (id & _ & H). apply bind_ok in H. destruct H as (lo & _ & H). apply bind_ok in H. destruct H as (len & _ & H).
    apply bind_ok in H. destruct H as (mo & _ & H). apply bind_ok in H. destruct H as (com & _ & H). apply bind_ok in H. destruct H as (rx & _ & H). apply bind_ok in H. destruct H as (tx & _ & H). apply bind_ok in H. destruct H as (po & CP & H).
    pose proof (at_child ns root rf OK _ frame po VF CP eq_refl) as AP. destruct po as [pdu|].
    - destruct AP as (VP & OP). change (mapped ns root frame pdu) in OP.
      apply bind_ok in H. destruct H as (ro & CR & H). apply bind_ok in H. destruct H as (path & P & H). apply bind_ok in H. destruct H as (r & R & H). apply bind_ok in H. destruct H as (e & _ & H). apply bind_ok in H. destruct H as (x & X & H).
      apply bind_ok in H. destruct H as (u & _ & H). apply bind_ok in H. destruct H as (i & NI & H). injection H as <-. unfold new_info in NI. apply bind_ok in NI. destruct NI as (m & M & NI). injection NI as <-.
      destruct (paths_ok _ _ _ _ _ VP R) as (FQ & PQ). destruct (tail_fresh _ _ _ _ X) as (FX & PX). split; [reflexivity|]. exists frame. split; [exact OF|]. right. exists pdu. split; [exact OP|]. cbn [am_info am_senders am_signals am_spec am_contained]. split; [|exact (parts_new name limit pdu r VP R)].
      split; [reflexivity|]. split; [apply Forall_app; now split|]. rewrite PX. cbn [sp_paths]. intros p. rewrite in_app_iff, PQ. apply or_iff_compat_r.
      pose proof (at_child ns root rf OK _ frame ro VF CR eq_refl) as AR. destruct ro as [rr|].
      + destruct AR as (VR & OR). change (only frame ["PDU-TO-FRAME-MAPPINGS"; "PDU-TO-FRAME-MAPPING"; "PDU-REF"] rr) in OR. apply bind_ok in P. destruct P as (a & A & P). injection P as <-. pose proof (pointed rr rr a VR A) as PT. cbn [In]. split.
        * intros [<-|[]]. exists rr. split; [exact OR|now apply PT].
        * intros (r' & O & Q). rewrite (only_fun ns root _ _ r' rr O OR) in Q. left. symmetry. now apply PT.
      + injection P as <-. split; [intros []|]. intros (r' & O & _). destruct (only_nothing ns root _ _ r' O AR).
    - apply bind_ok in H. destruct H as (i & NI & H). injection H as <-. unfold new_info in NI. apply bind_ok in NI. destruct NI as (m & M & NI). injection NI as <-. split; [reflexivity|]. exists frame. split; [exact OF|]. left. now repeat split; try apply AP.
  Qed.
  Lemma package_new limit p l : valid p -> package_messages from_text from_hex ns rf ver strict sort limit p = Ok l ->
    exists bts, Forall2 (fun bt m => new_message (snd bt) m) bts l /\ forall bt, In bt bts <-> exists c, reach p ["ELEMENTS"; "CAN-CLUSTER"] c /\ triggers ns root ver (fst bt) c (snd bt).
  Proof using OK.
    intros W H. unfold package_messages in H. apply bind_ok in H. destruct H as (cs & C & H). apply bind_ok in H. destruct H as (ls & M & H). injection H as <-.
    pose proof (at_children ns root rf OK _ p cs W C eq_refl) as IC. pose proof (children_valid ns root rf OK _ p cs W C eq_refl) as VC. rewrite Forall_forall in VC.
    destruct (gather _ _ _ M (fun bt m => new_message (snd bt) m) (fun c (bt : chars * node) => triggers ns root ver (fst bt) c (snd bt))) as (bts & F & I).
    - intros c l IN Q. apply bind_ok in Q. destruct Q as (bus & N & Q). apply bind_ok in Q. destruct Q as (ts & T & Q). specialize (VC c IN).
      assert (G : forallb good_atom (loc ver ["CAN-CLUSTER-VARIANTS"; "*&CAN-CLUSTER-CONDITIONAL"; "PHYSICAL-CHANNELS"; "*&CAN-PHYSICAL-CHANNEL"; "FRAME-TRIGGERINGS"; "*&CAN-FRAME-TRIGGERING"]
                                 ["PHYSICAL-CHANNELS"; "*&PHYSICAL-CHANNEL"; "FRAME-TRIGGERINGSS"; "*&CAN-FRAME-TRIGGERING"]) = true) by (unfold loc; now destruct v4).
      pose proof (at_children ns root rf OK _ c ts VC T G) as IT. rewrite either_bare in IT. pose proof (children_valid ns root rf OK _ c ts VC T G) as VT. rewrite Forall_forall in VT.
      pose proof (get_name ns root rf OK c bus VC N) as TN. exists (map (pair bus) ts). split.
      + apply mapM_ok in Q. clear - Q VT OK. induction Q as [|t m ts l E Q IH]; [constructor|]. cbn [map]. constructor; [apply (message_new limit bus); [apply VT; now left|exact E]|]. apply IH. intros y Y. apply VT. now right.
      + intros (bus', t). cbn [fst snd]. rewrite in_map_iff. unfold triggers, either in *. split.
        * intros (t' & E & I). injection E as <- <-. apply IT in I. split; [now destruct v4|exact TN].
        * intros (R & TN'). exists t. rewrite (text_fun ns root _ _ _ _ TN TN'). split; [reflexivity|]. apply IT. now destruct v4.
    - exists bts. split; [exact F|]. intros bt. rewrite I. split; intros (c & Q & R); exists c; (split; [now apply IC|exact R]).
  Qed.

  (** *** The byte order of headers *)
  Definition set_big (o : option bool) (m : amessage) : amessage := match o, am_contained m with Some b, _ :: _ => mkAMsg (am_info m) b (am_contained m) | _, _ => m end.
  Lemma set_twice o1 o2 m : set_big o2 (set_big o1 m) = set_big (match o2 with Some b => Some b | None => o1 end) m.
  Proof using. destruct m as [i b [|c l]], o1, o2; reflexivity. Qed.
  Notation system_below := (system_below ns root v4).
  Notation system_of := (system_of ns root v4).
  Notation last_system := (last_system ns root v4).
  Definition last_of (p s : node) : Prop :=
    only p ["ELEMENTS"; "SYSTEM"] s \/ exists l, nothing p ["ELEMENTS"; "SYSTEM"] /\ first_kid ns (either v4 "AR-PACKAGES" "SUB-PACKAGES") p l /\ last_system l s.
  Definition ordered (o : option bool) (any last : node -> Prop) : Prop :=
    match o with None => forall s, ~ any s | Some b => exists s, last s /\ (b = false <-> little_headers ns root s) end.
  Lemma order_step d p ms ms' : valid p ->
    (forall l ms ms', valid l -> (depth_of (snd l) < depth_of (snd p))%nat -> system_order ns rf ver d l ms = Ok ms' -> exists o, ms' = map (set_big o) ms /\ ordered o (system_below l) (last_system l)) ->
    (let* s := child p ["ELEMENTS"; "SYSTEM"] in
     match s with
     | None => match sub_list ns ver p with Some l => system_order ns rf ver d l ms | None => Ok ms end
     | Some s =>
         let* o := child s ["CONTAINER-I-PDU-HEADER-BYTE-ORDER"] in
         let big := match o with Some n => negb (is_text "MOST-SIGNIFICANT-BYTE-LAST" (n_text n)) | None => true end in
         Ok (map (fun m => match am_contained m with [] => m | _ => mkAMsg (am_info m) big (am_contained m) end) ms)
     end) = Ok ms' -> exists o, ms' = map (set_big o) ms /\ ordered o (system_of p) (last_of p).
  Proof using OK from_text from_hex.
    intros W IH H. apply bind_ok in H. destruct H as (s & C & H). pose proof (at_child ns root rf OK _ p s W C eq_refl) as A. destruct s as [s|].
    - destruct A as (VS & A). change (only p ["ELEMENTS"; "SYSTEM"] s) in A. apply bind_ok in H. destruct H as (o & CO & H). injection H as <-. pose proof (get_flag ns root rf OK s _ o "MOST-SIGNIFICANT-BYTE-LAST" VS CO eq_refl) as GF.
      exists (Some match o with Some n => negb (is_text "MOST-SIGNIFICANT-BYTE-LAST" (n_text n)) | None => true end). split; [apply map_ext; intros m; unfold set_big; now destruct (am_contained m)|].
      exists s. split; [now left|]. unfold little_headers. change (map bare ["CONTAINER-I-PDU-HEADER-BYTE-ORDER"]) with ["CONTAINER-I-PDU-HEADER-BYTE-ORDER"] in GF. rewrite <- GF. destruct o as [n|]; [destruct (is_text _ _); cbn; split; congruence|split; discriminate].
    - change (nothing p ["ELEMENTS"; "SYSTEM"]) in A. destruct (sub_list ns ver p) as [l|] eqn:S.
      + unfold sub_list in S. rewrite sub_name in S. apply (find_iff from_text from_hex) in S. pose proof (first_is_kid _ _ _ _ S) as K. destruct (IH l ms ms' (kid_ok root p l W K) (kid_depth _ _ K) H) as (o & E & Q). exists o. split; [exact E|].
        destruct o as [b|]; cbn in Q |- *.
        * destruct Q as (s & L & B). exists s. split; [right; now exists l|exact B].
        * intros s [O|(l' & _ & F & B)]; [destruct (only_nothing ns root _ _ s O A)|]. apply (Q s). apply (find_iff from_text from_hex) in S, F. rewrite S in F. now injection F as <-.
      + injection H as <-. exists None. split; [rewrite <- (map_id ms) at 1; reflexivity|]. cbn. intros s [O|(l' & _ & F & B)]; [destruct (only_nothing ns root _ _ s O A)|]. apply (find_iff from_text from_hex) in F. unfold sub_list in S. rewrite sub_name in S. congruence.
  Qed.
  Lemma order_big : forall d l ms ms', valid l -> (depth_of (snd l) <= d)%nat -> system_order ns rf ver d l ms = Ok ms' ->
    exists o, ms' = map (set_big o) ms /\ ordered o (system_below l) (last_system l).
  Proof using OK from_text from_hex.
    induction d as [|d IH]; intros l ms ms' W D H; [exfalso; destruct (snd l); cbn in D; lia|]. cbn [system_order] in H.
    assert (IHp : forall p, In p (n_kids l) -> forall l' ms ms', valid l' -> (depth_of (snd l') < depth_of (snd p))%nat -> system_order ns rf ver d l' ms = Ok ms' -> exists o, ms' = map (set_big o) ms /\ ordered o (system_below l') (last_system l')).
    { intros p I l' m1 m2 V L. apply IH; [exact V|]. apply kids_iff in I. pose proof (kid_depth _ _ I). lia. }
    assert (VP : forall p, In p (n_kids l) -> valid p) by (intros p I; apply kids_iff in I; exact (kid_ok root l p W I)).
    assert (Q : exists o, ms' = map (set_big o) ms /\ match o with None => forall p s, In p (n_kids l) -> ~ system_of p s
        | Some b => exists j p s, nth_error (n_kids l) j = Some p /\ last_of p s /\ (forall j' p' s', (j < j')%nat -> nth_error (n_kids l) j' = Some p' -> ~ system_of p' s') /\ (b = false <-> little_headers ns root s) end).
    { revert ms H IHp VP. generalize (n_kids l). induction l0 as [|p ps IHl]; intros ms H IHp VP; cbn [foldM] in H.
      - injection H as <-. exists None. split; [rewrite <- (map_id ms) at 1; reflexivity|]. intros p s [].
      - apply bind_ok in H. destruct H as (m1 & H1 & H). apply (order_step d p ms m1 (VP p (or_introl eq_refl)) (IHp p (or_introl eq_refl))) in H1. destruct H1 as (o1 & -> & Q1).
        destruct (IHl _ H (fun q I => IHp q (or_intror I)) (fun q I => VP q (or_intror I))) as (o2 & -> & Q2). exists (match o2 with Some b => Some b | None => o1 end). split; [rewrite map_map; apply map_ext; intros m; apply set_twice|].
        destruct o2 as [b|].
        + destruct Q2 as (j & q & s & N & L & M & B). exists (S j), q, s. split; [exact N|]. split; [exact L|]. split; [|exact B]. intros [|j'] p' s' J N'; [lia|]. apply (M j'); [lia|exact N'].
        + destruct o1 as [b|].
          * destruct Q1 as (s & L & B). exists 0%nat, p, s. split; [reflexivity|]. split; [exact L|]. split; [|exact B]. intros [|j'] p' s' J N'; [lia|]. apply Q2. exact (nth_error_In ps j' N').
          * intros q s [<-|I]; [apply Q1|now apply Q2]. }
    destruct Q as (o & E & Q). exists o. split; [exact E|]. destruct o as [b|]; cbn.
    - destruct Q as (j & p & s & N & L & M & B). apply kids_nth in N. assert (NM : no_more ns root v4 l j) by (intros j' p' s' J K; apply (M j' p' s' J); now apply kids_nth). exists s. split; [|exact B].
      destruct L as [O|(l' & NO & F & L)]; [exact (la_here _ _ _ l j p s N O NM)|exact (la_deeper _ _ _ l j p l' s N NO F L NM)].
    - intros s B. inversion B as [l' p s' K O|l' p l'' s' K NO F B']; subst; apply kids_iff in K; apply (Q p s K); [now left|right; now exists l''].
  Qed.
  (** *** All of it *)
  Lemma linked_ok (P : chars -> Prop) (E : events) i i' : (forall r e p, E r e p <-> takes_part ns root v4 r e p) -> am_senders i = [] -> Forall fresh (am_signals i) -> (forall path, In path (sp_paths (am_spec i)) <-> P path) -> grown E i i' -> linked ns root v4 P i'.
  Proof using.
    intros HE S F HP (_ & GS & GR). split.
    - intros e. rewrite GS, S. split.
      + intros [[]|(p & I & Q)]. exists p. split; [now apply HP|now apply HE].
      + intros (p & I & Q). right. exists p. split; [now apply HP|now apply HE].
    - intros s e I. revert I. induction GR as [|x y xs ys (A & B) GR IH]; intros I; [destruct I|]. inversion F; subst. destruct I as [<-|I]; [|now apply IH]. rewrite B. unfold fresh in *. rewrite H1. split.
      + intros [[]|(p & J & Q)]. exists p. split; [now apply HP|now apply HE].
      + intros (p & J & Q). right. exists p. split; [now apply HP|now apply HE].
  Qed.
  Lemma all_linked_ok E trig m m' : (forall r e p, E r e p <-> takes_part ns root v4 r e p) -> new_message trig m -> grown E (am_info m) (am_info m') -> Forall2 (grown E) (am_contained m) (am_contained m') -> all_linked ns root v4 trig m'.
  Proof using.
    intros HE (_ & frame & O & Q) G GC. exists frame. split; [exact O|]. destruct Q as [(N & S & F & P & C)|(pdu & M & (S & F & P) & cs & FC & IC)].
    - left. split; [exact N|]. destruct G as (_ & GS & GR). rewrite F in GR. rewrite C in GC. inversion GR. inversion GC. split; [|now split]. destruct (am_senders (am_info m')) as [|x xs]; [reflexivity|]. exfalso. assert (I : In x (x :: xs)) by now left. apply GS in I. rewrite S, P in I. destruct I as [[]|(p & [] & _)].
    - right. exists pdu. split; [exact M|]. split; [exact (linked_ok _ E _ _ HE S F P G)|]. exists cs. split; [|exact IC]. clear IC. revert GC. generalize (am_contained m'). induction FC as [|c i cs is_ (S' & F' & P') FC IH]; intros l' GC; inversion GC; subst; constructor.
      + exact (linked_ok _ E _ _ HE S' F' P' ltac:(eassumption)).
      + now apply IH.
  Qed.
  Lemma database_links limit db : load_database from_text from_hex ns rf ver strict sort limit ([], root) = Ok db ->
    exists bts, Forall2 (fun bt m => all_linked ns root v4 (snd bt) m /\ header_order ns root v4 m) bts (db_messages db) /\ forall bt, In bt bts <-> triggered ns root v4 (fst bt) (snd bt).
  Proof using OK.
    intros H. unfold load_database in H. destruct (n_find ns (if v4 then "AR-PACKAGES" else "TOP-LEVEL-PACKAGES") ([], root)) as [top|] eqn:T; [|discriminate].
    change (if v4 then "AR-PACKAGES" else "TOP-LEVEL-PACKAGES") with (either v4 "AR-PACKAGES" "TOP-LEVEL-PACKAGES") in T.
    assert (PK : forall p, In p (all_packages ns ver true top) <-> package ns root v4 (ar_package ns) p).
    { intros p. unfold all_packages. rewrite (packages_iff from_text from_hex) by reflexivity. split; [intros B; exists top; split; [now apply (find_iff from_text from_hex)|exact B]|]. intros (top' & F & B). apply (find_iff from_text from_hex) in F. rewrite T in F. now injection F as <-. }
    apply (find_iff from_text from_hex) in T as FT. pose proof (kid_ok _ _ _ (root_valid root) (first_is_kid _ _ _ _ FT)) as VT.
    apply bind_ok in H. destruct H as (bs & _ & H). apply bind_ok in H. destruct H as (nds & _ & H). apply bind_ok in H. destruct H as (msgs & M & H). apply bind_ok in H. destruct H as (m1 & H1 & H). apply bind_ok in H. destruct H as (m2 & H2 & H). apply bind_ok in H. destruct H as (m3 & H3 & H). injection H as <-. cbn [db_messages].
    destruct (gather _ _ _ M (fun bt m => new_message (snd bt) m) (fun p (bt : chars * node) => exists c, reach p ["ELEMENTS"; "CAN-CLUSTER"] c /\ triggers ns root ver (fst bt) c (snd bt))) as (bts & F & I).
    - intros p l IN Q. apply (package_new limit p l); [|exact Q]. apply PK in IN. destruct IN as (top' & FF & B). apply (below_valid ns root ver _ _ _ B). exact (kid_ok _ _ _ (root_valid root) (first_is_kid _ _ _ _ FF)).
    - exists bts. split.
      + pose proof (links_ok _ _ _ _ H1 VT) as G1. destruct (order_big _ _ _ _ VT (le_n _) H2) as (o & E2 & Q2).
        assert (G3 : all_grown none m2 m3).
        { apply (all_fold _ (fun _ => none)) in H3; [|intros p a b _; apply protect_grown]. revert H3. apply all_iff. intros r e p. split; [now intros (? & _ & [])|intros []]. }
        set (E := fun r e p => exists q, searched ns root v4 top q /\ package_event q r e p) in G1.
        assert (HE : forall r e p, E r e p <-> takes_part ns root v4 r e p).
        { intros r e p. assert (SP : forall q, searched ns root v4 top q <-> search_package ns root v4 q).
          { intros q. split; [intros S; now exists top|]. intros (top' & F' & S). apply (find_iff from_text from_hex) in F'. rewrite T in F'. now injection F' as <-. }
          unfold E, takes_part, by_group, by_management, package_event, ecu_event, group_event, nm_event. split.
          - intros (q & S & [(x & R & g & N & RG & d & _ & TD & RD & ->)|(V & c & n & RC & RN & k & par & a & e' & d & O & A & ST & LT & TN & RD & ->)]); exists d; (split; [|reflexivity]).
            + left. exists q, x, g. split; [now apply SP|]. now repeat split.
            + right. split; [exact V|]. exists q, c, n, k, par, a, e'. split; [now apply SP|]. do 7 (split; [assumption|]). exact RD.
          - intros (d & [(q & x & g & S & R & N & RG & TD & RD)|(V & q & c & n & k & par & a & e' & S & RC & RN & O & A & ST & LT & TN & RD)] & ->); apply SP in S; exists q; (split; [exact S|]).
            + left. exists x. split; [exact R|]. exists g. split; [exact N|]. split; [exact RG|]. exists d. now repeat split.
            + right. split; [exact V|]. exists c, n. split; [exact RC|]. split; [exact RN|]. exists k, par, a, e', d. do 6 (split; [assumption|]). reflexivity. }
        clearbody E. subst m2. clear - F G1 G3 Q2 HE FT. revert m1 m3 F G1 G3. generalize (List.concat msgs). intros ms m1 m3 F. revert m1 m3. induction F as [|bt m bts ms NM F IH]; intros m1 m3 G1 G3; inversion G1 as [|? ma ? l1 (A1 & A2 & A3) G1']; subst; cbn [map] in G3; inversion G3 as [|? mb ? l3 (B1 & B2 & B3) G3']; subst; constructor; [|now apply (IH l1)].
        assert (SB : am_info (set_big o ma) = am_info ma /\ am_contained (set_big o ma) = am_contained ma) by (unfold set_big; destruct ma as [i b [|c l]], o; now split). destruct SB as (SB1 & SB2). rewrite SB1 in B1. rewrite SB2 in B2.
        split.
        * apply (all_linked_ok E _ m mb HE NM); [apply (grown_trans E none E _ (am_info ma)); [intros r e p; unfold none; tauto|exact A1|exact B1]|]. revert A2 B2. apply f2_trans. intros x y z. apply grown_trans. intros r e p. unfold none. tauto.
        * unfold header_order. rewrite B3. destruct NM as (NB & _). unfold set_big. destruct ma as [i b [|c l]]; cbn [am_contained am_big_header am_info] in *.
          { left. inversion B2. split; [reflexivity|]. destruct o; cbn; congruence. }
          { right. split; [inversion B2; discriminate|]. exists top. split; [exact FT|]. destruct o as [b'|]; cbn in *; [right; exact Q2|left; split; [exact Q2|congruence]]. }
      + intros bt. rewrite I. unfold triggered, cluster. split.
        * intros (p & IN & c & R & TR & TN). exists c. split; [exists p; split; [now apply PK|exact R]|now split].
        * intros (c & (p & IN & R) & TN & TR). exists p. split; [now apply PK|]. exists c. split; [exact R|now split].
  Qed.
End Proofs.

(** ** The theorem *)
Section Theorems.
  Context (from_text : chars -> option spec_float) (from_hex : chars -> result spec_float) (strict : bool) (sort : sort_arg) (K : keeps sort) (limit : nat) (root : xml) (ns : chars) (db : adatabase).
  Context (N : root_namespace (x_tag root) = Ok ns) (L : load_system from_text from_hex strict sort limit root = Ok db).
  Notation v4 := (newer (db_version db) 4).
  (** The senders of every message and the receivers of its signals, also of those in containers, are the ECUs that take part
      in the way of a PDU of the message. *)
  Theorem C74_links : exists triggers, (forall bus trig, In (bus, trig) triggers <-> triggered ns root v4 bus trig) /\
    Forall2 (fun t m => all_linked ns root v4 (snd t) m) triggers (db_messages db).
  Proof.
    destruct (loaded from_text from_hex strict sort K limit root ns db N L) as (rf & R & D). destruct (database_links from_text from_hex ns root rf R _ strict sort limit db D) as (bts & F & I). exists bts. split; [intros bus trig; apply I|].
    clear I. induction F as [|t m ts ms (A & _) F IH]; constructor; assumption.
  Qed.
  (** The byte order of the headers in containers *)
  Theorem C74_headers : Forall (header_order ns root v4) (db_messages db).
  Proof.
    destruct (loaded from_text from_hex strict sort K limit root ns db N L) as (rf & R & D). destruct (database_links from_text from_hex ns root rf R _ strict sort limit db D) as (bts & F & I).
    clear I. induction F as [|t m ts ms (_ & A) F IH]; constructor; assumption.
  Qed.
End Theorems.

(** ** Concrete cases *)
Definition part_in (i : ainfo) : string * list string * list (string * list string) :=
  (m_name (am_core i), map string_of_list_ascii (am_senders i), map (fun s => (s_name (a_sig s), map string_of_list_ascii (a_receivers s))) (am_signals i)).
Definition participants (r : result adatabase) := match r with Ok db => Ok (map (fun m => (part_in (am_info m), am_big_header m, map part_in (am_contained m))) (db_messages db)) | Err e => Err e end.
(** Ecu1 sends the PDU Plain, Ecu2 receives it and the second alternative of Mux: through Plain Ecu1 sends the secured
    PDU and the container, too.  Ecu2 receives all signals of the frame FMux. *)
Example C74_hypotheses : keeps SortDefault /\ root_namespace (x_tag sys_root) = Ok ex_ns /\
  participants (load_system ex_float ex_hex true SortDefault 3 sys_root) = Ok
    [(("FMux", [], [("FMux_selector1", ["Ecu2"]); ("C", ["Ecu2"]); ("B", ["Ecu2"]); ("A", ["Ecu2"])]), true, []);
     (("FSec", ["Ecu1"], [("A", ["Ecu2"]); ("F", ["Ecu2"]); ("FSec_Freshness", ["Ecu2"]); ("FSec_Authenticator", ["Ecu2"])]), true, []);
     (("FBox", ["Ecu1"], []), true,
      [("Plain", ["Ecu1"], [("A", ["Ecu2"]); ("F", ["Ecu2"])]);
       ("Sec", ["Ecu1"], [("A", ["Ecu2"]); ("F", ["Ecu2"]); ("Sec_Freshness", ["Ecu2"]); ("Sec_Authenticator", ["Ecu2"])])])].
Proof. split; [exact keeps_default|]. split; vm_compute; reflexivity. Qed.
(** A container and two systems, the last of which says little endian *)
Definition in_packages (packages : list xml) (root : xml) : xml :=
  match root with Elem t a x ((Elem t' a' x' ks', s) :: ks) => Elem t a x ((Elem t' a' x' (ks' ++ map (fun p => (p, [])) packages), s) :: ks) | e => e end.
Definition system_package (name : string) (order : list xml) : xml := named_el "AR-PACKAGE" name [el "ELEMENTS" [] "" [named_el "SYSTEM" "S" order]].
Example C74_headers_hypotheses :
  let header r := match r with Ok db => Ok (map am_big_header (db_messages db)) | Err e => Err e end in
  let little := [leaf "CONTAINER-I-PDU-HEADER-BYTE-ORDER" last_] in
  header (load_system ex_float ex_hex true SortDefault 3 (in_packages [system_package "S1" []; system_package "S2" little] (boxed [mapping "A" "0" last_]))) = Ok [false] /\
  header (load_system ex_float ex_hex true SortDefault 3 (in_packages [system_package "S1" little; system_package "S2" []] (boxed [mapping "A" "0" last_]))) = Ok [true].
Proof. split; vm_compute; reflexivity. Qed.
(** "A node that sends a message is one of the nodes of the database": white space around the name of an ECU is part of the
    name of the node, and of the sender that the network management makes known, but not of the sender by a group of PDUs. *)
Definition spaced : xml := one_frame "I-SIGNAL-I-PDU"
  [ i_signal "A" "8" []; pdu_el "Pdu" "2" [] [mapping "A" "0" last_]; pdu_el "In" "2" [] [];
    named_el "ECU-INSTANCE" " Ecu" [el "ASSOCIATED-COM-I-PDU-GROUP-REFS" [] "" [ref_el "ASSOCIATED-COM-I-PDU-GROUP-REF" "I-SIGNAL-I-PDU-GROUP" "/P/Out"]];
    named_el "I-SIGNAL-I-PDU-GROUP" "Out" [leaf "COMMUNICATION-DIRECTION" "OUT"; el "I-SIGNAL-I-PDUS" [] "" [el "I-SIGNAL-I-PDU-REF-CONDITIONAL" [] "" [ref_el "I-SIGNAL-I-PDU-REF" "I-SIGNAL-I-PDU" "/P/Pdu"]]];
    named_el "NM-CONFIG" "Nm" [el "NM-CLUSTERS" [] "" [named_el "CAN-NM-CLUSTER" "Cl" [el "NM-NODES" [] "" [named_el "CAN-NM-NODE" "No" [
      ref_el "CONTROLLER-REF" "CAN-COMMUNICATION-CONTROLLER" "/P/ Ecu/Ctrl"; el "TX-NM-PDU-REFS" [] "" [ref_el "TX-NM-PDU-REF" "I-SIGNAL-I-PDU" "/P/Pdu"]]]]]] ].
Theorem C74_names_refuted :
  participants (load_system ex_float ex_hex true SortDefault 3 spaced) = Ok [(("F", ["Ecu"; " Ecu"], [("A", [])]), true, [])] /\
  match load_system ex_float ex_hex true SortDefault 3 spaced with Ok db => Ok (map (fun n => string_of_list_ascii (nd_name n)) (db_nodes db)) | Err e => Err e end = Ok [" Ecu"].
Proof. split; vm_compute; reflexivity. Qed.
