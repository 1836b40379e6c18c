(** Prop_EcuExtract: property C76, what the loader of ECU extracts reads, and when it is chosen. *)
From Coq Require Import Ascii Floats.SpecFloat Sorted.
From Verif Require Import Base PyNum Conversion Signal Message DictLemmas MsgThms Construct CSource CNames Regex DbcToken DbcTables Logreader DecodeCmd DbcLoad Xml Arxml ArxmlLoad Prop_Arxml ArxmlReach Prop_ArxmlNum Prop_ArxmlPdu Prop_ArxmlMsg Prop_ArxmlLinks EcuExtract.
Local Open Scope string_scope.
Local Open Scope Z_scope.
Local Open Scope list_scope.

(** ** What an ECU extract says *)
(** The tag of an element in the namespace of AUTOSAR 4 *)
Definition tag (t : string) (e : xml) : Prop := x_tag e = txt "{http://autosar.org/schema/r4.0}" ++ txt t.
(** One step down: to a child of a tag, or to a child of a tag that has a name *)
Definition step_to (s : string * option chars) (k : xml) : Prop :=
  tag (fst s) k /\ match snd s with None => True | Some n => exists q, In q (x_kids k) /\ tag "SHORT-NAME" q /\ all_text q = n end.
(** The element at a place; the place is given by the indices of the children *)
Fixpoint place (steps : list (string * option chars)) (e : xml) (idx : list nat) (x : xml) : Prop :=
  match steps, idx with
  | [], [] => x = e
  | s :: r, i :: is => exists k, nth_error (x_kids e) i = Some k /\ step_to s k /\ place r k is x
  | _, _ => False
  end.
(** The order of places in a document *)
Fixpoint before (a b : list nat) : Prop :=
  match a, b with
  | i :: a', j :: b' => (i < j)%nat \/ i = j /\ before a' b'
  | _, _ => False
  end.
(** All elements at the places of a path, in order *)
Definition list_at (steps : list (string * option chars)) (e : xml) (xs : list xml) : Prop :=
  exists idxs, Forall2 (place steps e) idxs xs /\ StronglySorted before idxs /\ forall i x, place steps e i x -> In i idxs.
(** The first one of them *)
Definition first_at (steps : list (string * option chars)) (e x : xml) : Prop :=
  exists i, place steps e i x /\ forall j y, place steps e j y -> j = i \/ before i j.
Definition none_at (steps : list (string * option chars)) (e : xml) : Prop := forall i x, ~ place steps e i x.
Definition child (t : string) (e x : xml) : Prop := first_at [(t, None)] e x.
Definition child_text (t : string) (e : xml) (w : chars) : Prop := exists x, child t e x /\ x_text x = w.
(** The parts of a reference: the text behind the last slash, and the text between the first two *)
Definition last_name (t w : chars) : Prop := ~ In "/"%char w /\ (t = w \/ exists front, t = front ++ "/"%char :: w).
Definition second_name (t w : chars) : Prop :=
  ~ In "/"%char w /\ exists a, ~ In "/"%char a /\ (t = a ++ "/"%char :: w \/ exists rest, t = a ++ "/"%char :: w ++ "/"%char :: rest).
(** The kind of a container or of a reference is the end of its definition *)
Definition of_kind (k : string) (c : xml) : Prop := exists front, child_text "DEFINITION-REF" c (front ++ txt k).
(** One of the values of a container *)
Definition value_of (value : string) (p : xml) (name v : chars) : Prop := (exists d, child_text "DEFINITION-REF" p d /\ last_name d name) /\ child_text value p v.
Definition value_at (section value : string) (c : xml) (i : nat) (name v : chars) : Prop :=
  exists s p, child section c s /\ nth_error (x_kids s) i = Some p /\ value_of value p name v.
Definition param := value_at "PARAMETER-VALUES" "VALUE".
Definition reference := value_at "REFERENCE-VALUES" "VALUE-REF".
Definition first_value (at_ : nat -> chars -> chars -> Prop) (name : string) (v : chars) : Prop :=
  exists i, at_ i (txt name) v /\ forall j w, (j < i)%nat -> ~ at_ j (txt name) w.
(** The last value of a name counts, if there is one *)
Definition last_value {A} (at_ : nat -> chars -> chars -> Prop) (name : string) (means : chars -> A -> Prop) (o : option A) : Prop :=
  match o with
  | Some a => exists i v, at_ i (txt name) v /\ means v a /\ forall j w, (i < j)%nat -> ~ at_ j (txt name) w
  | None => forall i v, ~ at_ i (txt name) v
  end.
(** Integers in texts: decimal digits, maybe with a sign and white space around *)
Definition int_text (t : chars) (z : Z) : Prop :=
  exists w, trimmed t w /\ (numeral 10 w z \/ exists r, w = "+"%char :: r /\ numeral 10 r z \/ w = "-"%char :: r /\ numeral 10 r (- z)).

Section Spec.
  Context (root : xml).
  Definition package (p : chars) : list (string * option chars) := [("AR-PACKAGES", None); ("AR-PACKAGE", Some p); ("ELEMENTS", None)].
  Definition module (m config : string) : list (string * option chars) :=
    [("ECUC-MODULE-CONFIGURATION-VALUES", Some (txt m)); ("CONTAINERS", None); ("ECUC-CONTAINER-VALUE", Some (txt config)); ("SUB-CONTAINERS", None)].
  (** *** Signals *)
  Definition one_of (l : list string) (v : chars) : Prop := exists t, In t l /\ v = txt t.
  Definition signal_means (c : xml) (o : option esignal) : Prop :=
    exists pos len order,
      last_value (param c) "ComBitPosition" int_text pos /\
      last_value (param c) "ComBitSize" int_text len /\
      last_value (param c) "ComSignalEndianness" (fun v w => w = map to_lower v) order /\
      match o with
      | None => pos = None \/ len = None \/ order = None
      | Some s =>
          (exists name, child_text "SHORT-NAME" c name /\ s_name (es_sig s) = to_string name) /\
          pos = Some (s_start (es_sig s)) /\ len = Some (s_length (es_sig s)) /\ order = Some (es_order s) /\
          (s_big (es_sig s) = true <-> es_order s = txt "big_endian") /\
          (s_signed (es_sig s) = true <-> exists i v, param c i (txt "ComSignalType") v /\ one_of ["SINT8"; "SINT16"; "SINT32"] v) /\
          (exists f, s_conv (es_sig s) = CNum (CIdent f) /\ (f = true <-> exists i v, param c i (txt "ComSignalType") v /\ one_of ["FLOAT32"; "FLOAT64"] v)) /\
          s_is_mux (es_sig s) = false /\ s_mux_ids (es_sig s) = None
      end.
  (** The signal that a path refers to *)
  Definition signal_at (path : chars) (o : option esignal) : Prop :=
    exists pkg name, second_name path pkg /\ last_name path name /\
      (none_at (package pkg ++ module "Com" "ComConfig" ++ [("ECUC-CONTAINER-VALUE", Some name)]) root /\ o = None \/
       exists c, first_at (package pkg ++ module "Com" "ComConfig" ++ [("ECUC-CONTAINER-VALUE", Some name)]) root c /\ signal_means c o).
  (** *** Frames *)
  (** A configuration of the CAN interface that is about a PDU *)
  Definition about (ref : chars) (c : xml) : Prop :=
    of_kind "CanIfTxPduCfg" c /\ (exists i, reference c i (txt "CanIfTxPduRef") ref) \/
    of_kind "CanIfRxPduCfg" c /\ (exists i, reference c i (txt "CanIfRxPduRef") ref).
  Definition config_of (ref : chars) (o : option xml) : Prop :=
    exists pkg cs, second_name ref pkg /\ list_at (package pkg ++ module "CanIf" "CanIfInitCfg" ++ [("ECUC-CONTAINER-VALUE", None)]) root cs /\
      match o with
      | Some c => exists a b, cs = a ++ c :: b /\ about ref c /\ Forall (fun x => ~ about ref x) a
      | None => Forall (fun x => ~ about ref x) cs
      end.
  Definition frame_of (ref : chars) (prefix : string) (id len : option Z) (ext : option bool) : Prop :=
    (config_of ref None /\ id = None /\ len = None /\ ext = None) \/
    exists c, config_of ref (Some c) /\
      last_value (param c) (prefix ++ "CanId") int_text id /\
      last_value (param c) (prefix ++ "Dlc") int_text len /\
      last_value (param c) (prefix ++ "CanIdType") (fun v b => b = true <-> v = txt "EXTENDED_CAN") ext.
  (** *** Messages *)
  Definition optional {A} (o : option A) : list A := match o with Some a => [a] | None => [] end.
  Definition message_of (strict : bool) (c : xml) (o : option emessage) : Prop :=
    exists direction ref id len ext,
      first_value (param c) "ComIPduDirection" direction /\ first_value (reference c) "ComPduIdRef" ref /\
      (direction = txt "SEND" /\ frame_of ref "CanIfTxPdu" id len ext \/ direction = txt "RECEIVE" /\ frame_of ref "CanIfRxPdu" id len ext) /\
      match o with
      | None => id = None \/ len = None \/ ext = None
      | Some m =>
          (exists name, child_text "SHORT-NAME" c name /\ m_name (em_core m) = to_string name) /\
          id = Some (m_frame_id (em_core m)) /\ len = Some (m_length (em_core m)) /\ ext = Some (m_extended (em_core m)) /\
          m_strict (em_core m) = strict /\ m_unused (em_core m) = 0 /\
          (forall s, In s (m_signals (em_core m)) <-> exists e, In e (em_signals m) /\ es_sig e = s) /\
          exists vs parts, list_at [("REFERENCE-VALUES", None); ("ECUC-REFERENCE-VALUE", None)] c vs /\
            Forall2 (fun v part =>
              of_kind "ComIPduSignalRef" v /\ (exists path s, child_text "VALUE-REF" v path /\ signal_at path s /\ part = optional s) \/
              ~ of_kind "ComIPduSignalRef" v /\ part = []) vs parts /\
            em_signals m = List.concat parts
      end.
  (** The collection of values, the module Com and its messages *)
  Definition collection (c : xml) : Prop :=
    first_at [("AR-PACKAGES", None); ("AR-PACKAGE", None); ("ELEMENTS", None); ("ECUC-VALUE-COLLECTION", None)] root c.
  Definition is_com (r : xml) : Prop := exists front, x_text r = front ++ txt "/Com".
  Definition com_ref (ref : chars) : Prop :=
    exists c a r b, collection c /\
      list_at [("ECUC-VALUES", None); ("ECUC-MODULE-CONFIGURATION-VALUES-REF-CONDITIONAL", None); ("ECUC-MODULE-CONFIGURATION-VALUES-REF", None)] c (a ++ r :: b) /\
      x_text r = ref /\ is_com r /\ Forall (fun x => ~ is_com x) (a ++ b).
  Definition extract_means (strict : bool) (ms : list emessage) : Prop :=
    exists ref pkg com, com_ref ref /\ second_name (ref ++ txt "/ComConfig") pkg /\
      first_at (package pkg ++ module "Com" "ComConfig") root com /\
      exists parts, Forall2 (fun c part =>
          of_kind "ComIPdu" c /\ (exists o, message_of strict c o /\ part = optional o) \/ ~ of_kind "ComIPdu" c /\ part = []) (x_kids com) parts /\
        ms = List.concat parts.
End Spec.

(** ** Search *)
Lemma has_name_iff t e : has_name t e = true <-> tag t e.
Proof. unfold has_name, tag, tagged, r40. destruct (cspec (x_tag e) ("{"%char :: txt "http://autosar.org/schema/r4.0" ++ "}"%char :: txt t)) as [E|E]; split; try discriminate; trivial; contradiction. Qed.
Lemma fits_iff s e : fits s e = true <-> step_to s e.
Proof.
  unfold fits, step_to. rewrite Bool.andb_true_iff, has_name_iff. destruct (snd s) as [n|]; [|tauto]. rewrite existsb_exists.
  split; (intros (A & q & I & B); split; [exact A|]; exists q; split; [exact I|]).
  - apply Bool.andb_true_iff in B. destruct B as (B & C). split; [now apply has_name_iff|]. now destruct (cspec (all_text q) n).
  - destruct B as (B & C). apply Bool.andb_true_iff. split; [now apply has_name_iff|]. now destruct (cspec (all_text q) n).
Qed.
Lemma ss_app {A} (R : A -> A -> Prop) l m : StronglySorted R l -> StronglySorted R m -> (forall x y, In x l -> In y m -> R x y) -> StronglySorted R (l ++ m).
Proof.
  induction l as [|x l IH]; intros L M H; [exact M|]. inversion L; subst. cbn. constructor; [apply IH; [assumption|assumption|]; intros; apply H; [now right|assumption]|].
  apply Forall_app. split; [assumption|]. apply Forall_forall. intros y Y. apply H; [now left|exact Y].
Qed.
Lemma ss_map (l : list (list nat)) i : StronglySorted before l -> StronglySorted before (map (cons i) l).
Proof. induction 1 as [|x l S IH F]; cbn [map]; constructor; [exact IH|]. apply Forall_forall. intros y Y. apply in_map_iff in Y. destruct Y as (z & <- & I). rewrite Forall_forall in F. right. split; [reflexivity|now apply F]. Qed.
Lemma f2_in_l {A B} (R : A -> B -> Prop) l m x : Forall2 R l m -> In x l -> exists y, In y m /\ R x y.
Proof. induction 1 as [|a b l m H F IH]; [intros []|]. intros [->|I]; [exists b; split; [now left|exact H]|]. destruct (IH I) as (y & Y & Q). exists y. split; [now right|exact Q]. Qed.
Lemma iterfind_list steps : forall e, list_at steps e (iterfind steps e).
Proof.
  induction steps as [|s r IH]; intros e.
  - exists [[]]. split; [repeat constructor|]. split; [repeat constructor|]. intros [|i is] x; [now left|intros []].
  - cbn [iterfind]. unfold list_at. cbn [place].
    (* the children from an index on *)
    assert (G : forall ks o, exists idxs,
      Forall2 (fun i x => exists j is k, i = (o + j)%nat :: is /\ nth_error ks j = Some k /\ step_to s k /\ place r k is x) idxs (flat_map (iterfind r) (filter (fits s) ks)) /\
      StronglySorted before idxs /\ forall j is k x, nth_error ks j = Some k -> step_to s k -> place r k is x -> In ((o + j)%nat :: is) idxs).
    { induction ks as [|k ks IHk]; intros o.
      - exists []. split; [constructor|]. split; [constructor|]. intros [|j] is k x; discriminate.
      - destruct (IHk (S o)) as (l & F & S & C). cbn [filter]. destruct (fits s k) eqn:E.
        + apply fits_iff in E. destruct (IH k) as (l0 & F0 & S0 & C0). exists (map (cons o) l0 ++ l). split; [|split].
          * cbn [flat_map]. apply Forall2_app.
            -- clear - F0 E. induction F0 as [|i x l m H _ IH]; constructor; [|exact IH]. exists 0%nat, i, k. rewrite Nat.add_0_r. now split.
            -- refine (f2_imp _ _ _ _ _ F). intros i x (j & is & k' & -> & N & H). exists (1 + j)%nat, is, k'. now rewrite Nat.add_succ_r.
          * apply ss_app; [now apply ss_map|exact S|]. intros x y X Y. apply in_map_iff in X. destruct X as (i & <- & _).
            destruct (f2_in_l _ _ _ _ F Y) as (z & _ & j & is & k' & -> & _). cbn. left. lia.
          * intros [|j] is k' x N H P; apply in_or_app; [left; injection N as <-; rewrite Nat.add_0_r; apply in_map; now apply (C0 _ x)|right]. rewrite Nat.add_succ_r. now apply (C j is k' x).
        + exists l. split; [|split; [exact S|]].
          * refine (f2_imp _ _ _ _ _ F). intros i x (j & is & k' & -> & N & H). exists (1 + j)%nat, is, k'. now rewrite Nat.add_succ_r.
          * intros [|j] is k' x N H P; [injection N as <-; apply fits_iff in H; congruence|]. rewrite Nat.add_succ_r. now apply (C j is k' x). }
    destruct (G (x_kids e) 0%nat) as (l & F & S & C). exists l. split; [|split; [exact S|]].
    + refine (f2_imp _ _ _ _ _ F). intros i x (j & is & k & -> & N & H & P). now exists k.
    + intros [|j is] x H; [destruct H|]. destruct H as (k & N & T & P). now apply (C j is k x).
Qed.
Lemma place_fun steps : forall e i x y, place steps e i x -> place steps e i y -> x = y.
Proof. induction steps as [|s r IH]; intros e [|j is] x y; cbn; try contradiction; [congruence|]. intros (k & N & _ & P) (k' & N' & _ & P'). rewrite N in N'. injection N' as <-. now apply (IH k is). Qed.
Lemma before_asym a : forall b, before a b -> before b a -> False.
Proof. induction a as [|i a IH]; intros [|j b]; cbn; try contradiction. intros [L|(-> & L)] [M|(E & M)]; try (exfalso; clear IH; lia). exact (IH b L M). Qed.
Lemma first_fun steps e x y : first_at steps e x -> first_at steps e y -> x = y.
Proof.
  intros (i & P & F) (j & Q & G). destruct (F j y Q) as [->|B]; [now apply (place_fun steps e i)|]. destruct (G i x P) as [->|B']; [now apply (place_fun steps e j)|]. elim (before_asym _ _ B B').
Qed.
Lemma find_some steps e x : find steps e = Some x -> first_at steps e x.
Proof.
  unfold find. pose proof (iterfind_list steps e) as (l & F & S & C). destruct (iterfind steps e) as [|y ys]; [discriminate|]. intros [= ->].
  inversion F as [|i ? l' ? P F']; subst. inversion S as [|? ? S' FA]; subst. exists i. split; [exact P|]. intros j y Q. destruct (C j y Q) as [->|I]; [now left|right]. rewrite Forall_forall in FA. now apply FA.
Qed.
Lemma find_none steps e : find steps e = None -> none_at steps e.
Proof.
  unfold find. pose proof (iterfind_list steps e) as (l & F & S & C). destruct (iterfind steps e) as [|y ys]; [|discriminate]. intros _. inversion F; subst. intros i x P. exact (C i x P).
Qed.
Lemma first_exists steps e x : first_at steps e x -> ~ none_at steps e.
Proof. intros (i & P & _) N. exact (N i x P). Qed.
(** *** Texts of children *)
Lemma text_or_none_ok t e w : text_or_none [t] e = Ok w -> child_text t e w.
Proof. unfold text_or_none, plain. cbn [map]. destruct (find [(t, None)] e) as [x|] eqn:E; [|discriminate]. intros [= <-]. exists x. split; [now apply find_some|reflexivity]. Qed.
Lemma text_in_ok t e w : text_in [t] e = Ok w -> child_text t e w.
Proof.
  unfold text_in, plain. cbn [map]. destruct (find [(t, None)] e) as [x|] eqn:E; [|discriminate]. intros H. exists x. split; [now apply find_some|]. destruct (x_text x); [discriminate|]. now injection H as <-.
Qed.
Lemma child_text_fun t e v w : child_text t e v -> child_text t e w -> v = w.
Proof. intros (x & X & <-) (y & Y & <-). now rewrite (first_fun _ _ _ _ X Y). Qed.
(** *** Parts of references *)
Lemma free_last c (w : chars) a b v : ~ In c w -> ~ In c v -> a ++ c :: w = b ++ c :: v -> w = v.
Proof.
  revert b. induction a as [|x a IH]; intros [|y b] W V E; cbn in E.
  - now injection E as <-.
  - injection E as <- E. elim W. rewrite E. apply in_or_app. right. now left.
  - injection E as -> E. elim V. rewrite <- E. apply in_or_app. right. now left.
  - injection E as -> E. now apply (IH b).
Qed.
Lemma last_name_fun t v w : last_name t v -> last_name t w -> v = w.
Proof.
  intros (V & [->|(a & ->)]) (W & [E|(b & E)]); [now symmetry|..].
  - elim V. rewrite E. apply in_or_app. right. now left.
  - elim W. rewrite <- E. apply in_or_app. right. now left.
  - now apply (free_last slash v a b w).
Qed.
Lemma last_part_ok t : last_name t (last_part t).
Proof.
  unfold last_part. pose proof (join_split slash t) as J. pose proof (split_free slash t) as F. destruct (split_nonempty slash t) as (w & ws & E). rewrite E in *. clear E.
  destruct (exists_last (l := w :: ws) ltac:(discriminate)) as (l & x & E). rewrite E in *. clear E w ws. rewrite last_last. apply Forall_app in F. destruct F as (_ & F). inversion F as [|? ? NI ?].
  split; [exact NI|]. destruct l as [|y l]; [left; now rewrite <- J|right]. rewrite join_snoc in J by discriminate. rewrite <- J. eauto.
Qed.
Lemma second_part_ok t w : second_part t = Ok w -> second_name t w.
Proof.
  unfold second_part. pose proof (join_split slash t) as J. pose proof (split_free slash t) as F. destruct (split_on slash t) as [|a [|b r]]; try discriminate. intros [= ->].
  inversion F as [|? ? A F']. inversion F' as [|? ? B F'']. subst t. split; [exact B|]. exists a. split; [exact A|]. destruct r as [|c r]; [now left|right]. eexists. reflexivity.
Qed.
Lemma ends_iff s t : ends_with s t = true <-> exists f, t = f ++ s.
Proof.
  unfold ends_with. rewrite Bool.andb_true_iff, Nat.leb_le. split.
  - intros (L & H). destruct (cspec (skipn (List.length t - List.length s) t) s) as [E|]; [|discriminate]. exists (firstn (List.length t - List.length s) t). rewrite <- E at 2. symmetry. apply firstn_skipn.
  - intros (f & ->). rewrite app_length. split; [lia|]. replace (List.length f + List.length s - List.length s)%nat with (List.length f) by lia. rewrite skipn_app, skipn_all, Nat.sub_diag. cbn.
    now destruct (cspec s s).
Qed.
Lemma kind_iff k c d : child_text "DEFINITION-REF" c d -> (ends_with (txt k) d = true <-> of_kind k c).
Proof.
  intros D. rewrite ends_iff. split; intros (f & H); exists f; [now rewrite <- H|]. exact (child_text_fun _ _ _ _ D H).
Qed.
Lemma int_ok t z : int10 t = Ok z -> int_text t z.
Proof.
  destruct t as [|c t]; [discriminate|]. unfold int10. set (u := c :: t). intros H. exists (strip_space u). split; [now apply strip_trimmed|].
  assert (D : forall l y, read_digits 10 0 l = Some y -> numeral 10 l y) by (intros l y; now apply digits_iff).
  destruct (strip_space u) as [|a w]; [discriminate|].
  assert (P : read_digits 10 0 (a :: w) = Some z -> numeral 10 (a :: w) z) by apply D.
  destruct (Ascii.eqb_spec a "-") as [->|N1]; [|destruct (Ascii.eqb_spec a "+") as [->|N2]].
  - right. exists w. right. split; [reflexivity|]. destruct (read_digits 10 0 w) as [y|] eqn:R; [|discriminate]. injection H as <-. rewrite Z.opp_involutive. now apply D.
  - right. exists w. left. split; [reflexivity|]. destruct (read_digits 10 0 w) as [y|] eqn:R; [|discriminate]. injection H as <-. now apply D.
  - left. apply P. assert (X : (match read_digits 10 0 (a :: w) with Some z0 => Ok z0 | None => Err ValueError end) = Ok z).
    { rewrite <- H. destruct a as [[] [] [] [] [] [] [] []]; try reflexivity; [now elim N1|now elim N2] || now elim N2 || now elim N1. }
    destruct (read_digits 10 0 (a :: w)); [now injection X as ->|discriminate].
Qed.
(** *** Values of containers *)
Lemma value_iff value p n v : entry value p = Ok (n, v) -> forall n' v', value_of value p n' v' <-> n' = n /\ v' = v.
Proof.
  unfold entry. intros H n' v'. apply bind_ok in H. destruct H as (d & D & H). apply bind_ok in H. destruct H as (w & W & H).
  assert (CD : child_text "DEFINITION-REF" p d) by now apply text_or_none_ok. apply text_or_none_ok in W. destruct d as [|c d]; [discriminate|]. injection H as <- <-. split.
  - intros ((d' & D' & L) & V). rewrite (child_text_fun _ _ _ _ D' CD) in L. split; [exact (last_name_fun _ _ _ L (last_part_ok _))|exact (child_text_fun _ _ _ _ V W)].
  - intros (-> & ->). split; [|exact W]. exists (c :: d). split; [exact CD|apply last_part_ok].
Qed.
Lemma entries_iff section c l : entries section c = Ok l -> forall value i n v, value_at section value c i n v <-> exists p, nth_error l i = Some p /\ value_of value p n v.
Proof.
  unfold entries, plain. cbn [map]. destruct (find [(section, None)] c) as [s|] eqn:E; [|discriminate]. intros [= <-] value i n v. apply find_some in E. split.
  - intros (s' & p & C & N & V). rewrite (first_fun _ _ _ _ C E) in N. now exists p.
  - intros (p & N & V). now exists s, p.
Qed.
Lemma is_text_false t l : is_text t l = false <-> l <> txt t.
Proof. rewrite <- is_text_iff. destruct (is_text t l); split; congruence. Qed.
Section Fold.
  Context {S : Type} (value : string) (f : S -> xml -> result S) (reads : forall st p st', f st p = Ok st' -> exists e, entry value p = Ok e).
  Definition in_list (l : list xml) (i : nat) (n v : chars) : Prop := exists p, nth_error l i = Some p /\ value_of value p n v.
  Lemma in_cons p l i n v : in_list (p :: l) (Datatypes.S i) n v <-> in_list l i n v. Proof. reflexivity. Qed.
  Lemma in_head p l n v : in_list (p :: l) 0 n v <-> value_of value p n v.
  Proof. split; [intros (q & [= <-] & H); exact H|intros H; exists p; now split]. Qed.
  Lemma fold_last {A} (proj : S -> option A) (means : chars -> A -> Prop) name :
    (forall st p st' n v, entry value p = Ok (n, v) -> f st p = Ok st' ->
       n = txt name /\ (exists a, means v a /\ proj st' = Some a) \/ n <> txt name /\ proj st' = proj st) ->
    forall l st0 st, foldM f l st0 = Ok st -> proj st0 = None -> last_value (in_list l) name means (proj st).
  Proof.
    intros step l st0 st H N0.
    assert (G : (exists i v a, in_list l i (txt name) v /\ means v a /\ proj st = Some a /\ forall j w, (i < j)%nat -> ~ in_list l j (txt name) w) \/
                (forall i v, ~ in_list l i (txt name) v) /\ proj st = proj st0).
    { clear N0. revert st0 H. induction l as [|p l IH]; intros st0 H.
      - injection H as ->. right. split; [|reflexivity]. intros [|i] v (q & [=] & _).
      - cbn [foldM] in H. apply bind_ok in H. destruct H as (st1 & H1 & H). destruct (reads _ _ _ H1) as ((n & v) & E).
        pose proof (value_iff _ _ _ _ E) as V. destruct (IH _ H) as [(i & w & a & I & M & P & L)|(NO & P)].
        + left. exists (Datatypes.S i), w, a. split; [exact I|]. split; [exact M|]. split; [exact P|]. intros [|j] u LT; [lia|]. rewrite in_cons. apply L. lia.
        + destruct (step _ _ _ _ _ E H1) as [(-> & a & M & P1)|(NE & P1)].
          * left. exists 0%nat, v, a. split; [apply in_head; now apply V|]. split; [exact M|]. split; [now rewrite P|]. intros [|j] u LT; [lia|]. rewrite in_cons. apply NO.
          * right. split; [|now rewrite P]. intros [|i] u; [rewrite in_head; intros X; apply V in X; now destruct X as (<- & _)|rewrite in_cons; apply NO]. }
    unfold last_value. destruct G as [(i & v & a & I & M & P & L)|(NO & P)]; rewrite P; [now exists i, v|]. now rewrite N0.
  Qed.
  Lemma fold_any (proj : S -> bool) (test : chars -> Prop) name :
    (forall st p st' n v, entry value p = Ok (n, v) -> f st p = Ok st' -> (proj st' = true <-> proj st = true \/ n = txt name /\ test v)) ->
    forall l st0 st, foldM f l st0 = Ok st -> (proj st = true <-> proj st0 = true \/ exists i v, in_list l i (txt name) v /\ test v).
  Proof.
    intros step l. induction l as [|p l IH]; intros st0 st H.
    - injection H as ->. split; [now left|]. intros [P|([|i] & v & (q & [=] & _) & _)]; exact P.
    - cbn [foldM] in H. apply bind_ok in H. destruct H as (st1 & H1 & H). destruct (reads _ _ _ H1) as ((n & v) & E). pose proof (value_iff _ _ _ _ E) as V.
      rewrite (IH _ _ H), (step _ _ _ _ _ E H1). split.
      + intros [[P|(-> & T)]|(i & w & I & T)]; [now left|right; exists 0%nat, v; split; [apply in_head; now apply V|exact T]|right; exists (Datatypes.S i), w; now split].
      + intros [P|([|i] & w & I & T)]; [now left; left|apply in_head in I; apply V in I; destruct I as (<- & ->); left; now right|right; now exists i, w].
  Qed.
End Fold.
Lemma last_value_ext {A} (P Q : nat -> chars -> chars -> Prop) name (means : chars -> A -> Prop) o : (forall i n v, P i n v <-> Q i n v) -> last_value P name means o -> last_value Q name means o.
Proof.
  intros E. destruct o as [a|]; cbn.
  - intros (i & v & H & M & L). exists i, v. split; [now apply E|]. split; [exact M|]. intros j w J X. apply (L j w J). now apply E.
  - intros H i v X. apply (H i v). now apply E.
Qed.
Lemma first_entry_some value name l v : first_entry value name l = Ok (Some v) ->
  exists i, in_list value l i (txt name) v /\ forall j w, (j < i)%nat -> ~ in_list value l j (txt name) w.
Proof.
  induction l as [|p l IH]; cbn [first_entry]; [discriminate|]. intros H. apply bind_ok in H. destruct H as ((n & u) & E & H). pose proof (value_iff _ _ _ _ E) as V. cbn [fst snd] in H.
  destruct (is_text name n) eqn:T.
  - injection H as ->. apply is_text_iff in T. subst n. exists 0%nat. split; [apply in_head; now apply V|]. intros j w J. lia.
  - apply is_text_false in T. destruct (IH H) as (i & I & L). exists (S i). split; [exact I|]. intros [|j] w J; [rewrite in_head; intros X; apply V in X; now destruct X as (<- & _)|rewrite in_cons; apply L; lia].
Qed.
Lemma first_value_ok section value c l name v : entries section c = Ok l -> first_entry value name l = Ok (Some v) -> first_value (value_at section value c) name v.
Proof.
  intros E H. destruct (first_entry_some _ _ _ _ H) as (i & I & L). exists i. split; [now apply (entries_iff _ _ _ E)|]. intros j w J X. apply (L j w J). now apply (entries_iff _ _ _ E).
Qed.

Lemma txt_inj a b : txt a = txt b -> a = b.
Proof. intros H. rewrite <- (string_of_list_ascii_of_string a), <- (string_of_list_ascii_of_string b). unfold txt in H. now rewrite H. Qed.
(** *** Signals *)
Lemma sig_param_reads st p st' : sig_param st p = Ok st' -> exists e, entry "VALUE" p = Ok e.
Proof. unfold sig_param. intros H. apply bind_ok in H. destruct H as (e & E & _). now exists e. Qed.
Ltac texts := repeat match goal with H : is_text _ _ = true |- _ => apply is_text_iff in H | H : is_text _ _ = false |- _ => apply is_text_false in H end.
Lemma sig_param_ok st p st' n v : entry "VALUE" p = Ok (n, v) -> sig_param st p = Ok st' ->
  (n = txt "ComBitPosition" /\ (exists a, int_text v a /\ g_pos st' = Some a) \/ n <> txt "ComBitPosition" /\ g_pos st' = g_pos st) /\
  (n = txt "ComBitSize" /\ (exists a, int_text v a /\ g_len st' = Some a) \/ n <> txt "ComBitSize" /\ g_len st' = g_len st) /\
  (n = txt "ComSignalEndianness" /\ (exists a, a = map to_lower v /\ g_order st' = Some a) \/ n <> txt "ComSignalEndianness" /\ g_order st' = g_order st) /\
  (g_signed st' = true <-> g_signed st = true \/ n = txt "ComSignalType" /\ one_of ["SINT8"; "SINT16"; "SINT32"] v) /\
  (g_float st' = true <-> g_float st = true \/ n = txt "ComSignalType" /\ one_of ["FLOAT32"; "FLOAT64"] v).
Proof.
  intros E H. unfold sig_param in H. rewrite E in H. cbn [bind] in H.
  assert (OFF : forall k l (b : bool), n = txt k -> k <> "ComSignalType" -> (b = true <-> b = true \/ n = txt "ComSignalType" /\ one_of l v)).
  { intros k l b -> K. split; [now left|]. intros [B|(X & _)]; [exact B|]. elim K. now apply txt_inj in X. }
  assert (NE : forall a b, n = txt a -> a <> b -> n <> txt b) by (intros a b -> K X; now apply txt_inj in X).
  destruct (is_text "ComBitPosition" n) eqn:T1; texts.
  { apply bind_ok in H. destruct H as (z & Z & H). injection H as <-. cbn [g_pos g_len g_order g_signed g_float]. split; [left; split; [exact T1|]; exists z; split; [now apply int_ok|reflexivity]|].
    split; [right; split; [now apply (NE _ _ T1)|reflexivity]|]. split; [right; split; [now apply (NE _ _ T1)|reflexivity]|]. split; now apply (OFF _ _ _ T1). }
  destruct (is_text "ComBitSize" n) eqn:T2; texts.
  { apply bind_ok in H. destruct H as (z & Z & H). injection H as <-. cbn [g_pos g_len g_order g_signed g_float]. split; [now right|]. split; [left; split; [exact T2|]; exists z; split; [now apply int_ok|reflexivity]|].
    split; [right; split; [now apply (NE _ _ T2)|reflexivity]|]. split; now apply (OFF _ _ _ T2). }
  destruct (is_text "ComSignalEndianness" n) eqn:T3; texts.
  { destruct v as [|c v]; [discriminate|]. injection H as <-. cbn [g_pos g_len g_order g_signed g_float]. split; [now right|]. split; [now right|]. split; [left; split; [exact T3|]; eexists; split; reflexivity|].
    split; now apply (OFF _ _ _ T3). }
  destruct (is_text "ComSignalType" n) eqn:T4; texts.
  - destruct (is_text "SINT8" v || is_text "SINT16" v || is_text "SINT32" v) eqn:S.
    + injection H as <-. cbn [g_pos g_len g_order g_signed g_float]. split; [now right|]. split; [now right|]. split; [now right|].
      assert (X : one_of ["SINT8"; "SINT16"; "SINT32"] v).
      { rewrite !Bool.orb_true_iff, !is_text_iff in S. unfold one_of. destruct S as [[S|S]|S]; [exists "SINT8"|exists "SINT16"|exists "SINT32"]; split; cbn; auto. }
      split; [split; [now right|trivial]|]. split; [now left|]. intros [F|(_ & t & [<-|[<-|[]]] & ->)]; [exact F|discriminate S..].
    + destruct (is_text "FLOAT32" v || is_text "FLOAT64" v) eqn:F; injection H as <-; cbn [g_pos g_len g_order g_signed g_float]; (split; [now right|]); (split; [now right|]); (split; [now right|]).
      * assert (X : one_of ["FLOAT32"; "FLOAT64"] v) by (rewrite Bool.orb_true_iff, !is_text_iff in F; unfold one_of; destruct F as [F|F]; [exists "FLOAT32"|exists "FLOAT64"]; split; cbn; auto).
        split; [|split; [now right|trivial]]. split; [now left|]. intros [G|(_ & t & [<-|[<-|[<-|[]]]] & ->)]; [exact G|discriminate S..].
      * split; (split; [now left|]); intros [G|(_ & t & I & ->)]; [exact G| |exact G|]; cbn in I; repeat (destruct I as [<-|I]; [discriminate S || discriminate F|]); destruct I.
  - injection H as <-. split; [now right|]. split; [now right|]. split; [now right|]. split; (split; [now left|]); (intros [G|(X & _)]; [exact G|contradiction]).
Qed.
Lemma quoted_ok t n s : quoted t n = Ok s -> s = (t, Some n).
Proof. unfold quoted. destruct (existsb (Ascii.eqb "'") n); [discriminate|]. now intros [= <-]. Qed.
Lemma identity_conv f c : factory f_one f_zero None f = Ok c -> c = CNum (CIdent f).
Proof. unfold factory. intros H. apply bind_ok in H. destruct H as (i & I & H). injection H as <-. destruct f; vm_compute in I; now injection I as <-. Qed.
Section Load.
  Context (root : xml).
  Lemma signal_means_ok c name ps st o : text_or_none ["SHORT-NAME"] c = Ok name -> entries "PARAMETER-VALUES" c = Ok ps ->
    foldM sig_param ps (mkSigState None None None false false) = Ok st ->
    match g_pos st, g_len st, g_order st with
    | Some pos, Some len, Some order =>
        let* conv := factory f_one f_zero None (g_float st) in
        Ok (Some (mkESignal (mkSignal (to_string name) pos len (is_text "big_endian" order) (g_signed st) conv None None false None None) order))
    | _, _, _ => Ok None
    end = Ok o -> signal_means c o.
  Proof.
    intros N P F H. apply text_or_none_ok in N.
    assert (E : forall i n v, in_list "VALUE" ps i n v <-> param c i n v) by (intros; symmetry; apply (entries_iff _ _ _ P)).
    exists (g_pos st), (g_len st), (g_order st).
    assert (L1 : last_value (param c) "ComBitPosition" int_text (g_pos st)).
    { apply (last_value_ext _ _ _ _ _ E). apply (fold_last "VALUE" sig_param sig_param_reads g_pos int_text "ComBitPosition" (fun a b c0 d e X Y => proj1 (sig_param_ok a b c0 d e X Y)) _ _ _ F eq_refl). }
    assert (L2 : last_value (param c) "ComBitSize" int_text (g_len st)).
    { apply (last_value_ext _ _ _ _ _ E). apply (fold_last "VALUE" sig_param sig_param_reads g_len int_text "ComBitSize" (fun a b c0 d e X Y => proj1 (proj2 (sig_param_ok a b c0 d e X Y))) _ _ _ F eq_refl). }
    assert (L3 : last_value (param c) "ComSignalEndianness" (fun v w => w = map to_lower v) (g_order st)).
    { apply (last_value_ext _ _ _ _ _ E). apply (fold_last "VALUE" sig_param sig_param_reads g_order (fun v w => w = map to_lower v) "ComSignalEndianness" (fun a b c0 d e X Y => proj1 (proj2 (proj2 (sig_param_ok a b c0 d e X Y)))) _ _ _ F eq_refl). }
    split; [exact L1|]. split; [exact L2|]. split; [exact L3|].
    assert (A : forall test (b : bool), (b = true <-> false = true \/ exists i v, in_list "VALUE" ps i (txt "ComSignalType") v /\ test v) -> (b = true <-> exists i v, param c i (txt "ComSignalType") v /\ test v)).
    { intros test b B. rewrite B. split; [intros [X|(i & v & I & T)]; [discriminate|]|intros (i & v & I & T); right]; exists i, v; (split; [now apply E|exact T]). }
    pose proof (A _ _ (fold_any "VALUE" sig_param sig_param_reads g_signed _ "ComSignalType" (fun a b c0 d e X Y => proj1 (proj2 (proj2 (proj2 (sig_param_ok a b c0 d e X Y))))) _ _ _ F)) as SG.
    pose proof (A _ _ (fold_any "VALUE" sig_param sig_param_reads g_float _ "ComSignalType" (fun a b c0 d e X Y => proj2 (proj2 (proj2 (proj2 (sig_param_ok a b c0 d e X Y))))) _ _ _ F)) as FL.
    destruct (g_pos st) as [pos|]; [|injection H as <-; now left]. destruct (g_len st) as [len|]; [|injection H as <-; now right; left]. destruct (g_order st) as [order|]; [|injection H as <-; now right; right].
    apply bind_ok in H. destruct H as (conv & C & H). injection H as <-. cbn [es_sig es_order s_name s_start s_length s_big s_signed s_conv s_is_mux s_mux_ids].
    split; [exists name; split; [exact N|reflexivity]|]. do 3 (split; [reflexivity|]). split; [apply is_text_iff|]. split; [exact SG|]. split; [|split; reflexivity].
    exists (g_float st). split; [now apply identity_conv|exact FL].
  Qed.
  Lemma signal_ok path o : load_esignal root path = Ok o -> signal_at root path o.
  Proof.
    unfold load_esignal. destruct path as [|ch path']; [discriminate|]. set (path := ch :: path'). intros H. apply bind_ok in H. destruct H as (w & W & H).
    unfold find_value in W. apply bind_ok in W. destruct W as (p & P & W). apply bind_ok in W. destruct W as (ps & PS & W). apply bind_ok in W. destruct W as (ls & LS & W). injection W as W.
    apply quoted_ok in PS, LS. subst ps ls. exists p, (last_part path). split; [now apply second_part_ok|]. split; [apply last_part_ok|].
    destruct w as [c|].
    - right. exists c. split; [exact (find_some _ _ _ W)|]. apply bind_ok in H. destruct H as (name & N & H). apply bind_ok in H. destruct H as (l & L & H). apply bind_ok in H. destruct H as (st & F & H).
      now apply (signal_means_ok c name l st).
    - left. split; [exact (find_none _ _ W)|now injection H as <-].
  Qed.
  (** *** Frames *)
  Lemma first_match_ok expected ref l b : first_match expected ref l = Ok b -> (b = true <-> exists i, in_list "VALUE-REF" l i (txt expected) ref).
  Proof.
    revert b. induction l as [|p l IH]; intros b; cbn [first_match].
    - intros [= <-]. split; [discriminate|]. intros ([|i] & q & [=] & _).
    - intros H. apply bind_ok in H. destruct H as ((n & v) & E & H). pose proof (value_iff _ _ _ _ E) as V. cbn [fst snd] in H.
      destruct (is_text expected n && chars_eqb v ref) eqn:T.
      + injection H as <-. apply Bool.andb_true_iff in T. destruct T as (T & Q). apply is_text_iff in T. destruct (cspec v ref) as [->|]; [|discriminate]. split; [intros _|trivial].
        exists 0%nat. apply in_head. now apply V.
      + rewrite (IH _ H). split; [intros (i & I); now exists (S i)|]. intros ([|i] & I); [|now exists i]. apply in_head in I. apply V in I. destruct I as (<- & <-).
        rewrite (proj2 (is_text_iff _ _) eq_refl) in T. destruct (cspec ref ref); [discriminate|contradiction].
  Qed.
  Lemma rx_not_tx c d : child_text "DEFINITION-REF" c d -> of_kind "CanIfTxPduCfg" c -> of_kind "CanIfRxPduCfg" c -> False.
  Proof.
    intros D (f & F) (g & G). pose proof (child_text_fun _ _ _ _ F G) as E. assert (X : forall (a b : chars), a ++ txt "CanIfTxPduCfg" = b ++ txt "CanIfRxPduCfg" -> rev (txt "CanIfTxPduCfg") ++ rev a = rev (txt "CanIfRxPduCfg") ++ rev b) by (intros a b H; now rewrite <- !rev_app_distr, H).
    apply X in E. cbn in E. discriminate E.
  Qed.
  Lemma refers_ok ref c b : refers_to ref c = Ok b -> (b = true <-> about ref c).
  Proof.
    unfold refers_to. intros H. apply bind_ok in H. destruct H as (d & D & H). apply text_in_ok in D. unfold about.
    assert (R : forall k l, entries "REFERENCE-VALUES" c = Ok l -> first_match k ref l = Ok b -> (b = true <-> exists i, reference c i (txt k) ref)).
    { intros k l L M. rewrite (first_match_ok _ _ _ _ M). split; intros (i & I); exists i; now apply (entries_iff _ _ _ L). }
    destruct (ends_with (txt "CanIfTxPduCfg") d) eqn:T.
    - apply (kind_iff _ _ _ D) in T. apply bind_ok in H. destruct H as (l & L & H). rewrite (R _ _ L H). split; [intros I; left; now split|]. intros [(_ & I)|(K & _)]; [exact I|]. elim (rx_not_tx _ _ D T K).
    - assert (NT : ~ of_kind "CanIfTxPduCfg" c) by (intros K; apply (kind_iff _ _ _ D) in K; congruence). destruct (ends_with (txt "CanIfRxPduCfg") d) eqn:T2.
      + apply (kind_iff _ _ _ D) in T2. apply bind_ok in H. destruct H as (l & L & H). rewrite (R _ _ L H). split; [intros I; right; now split|]. intros [(K & _)|(_ & I)]; [contradiction|exact I].
      + injection H as <-. split; [discriminate|]. intros [(K & _)|(K & _)]; [contradiction|]. apply (kind_iff _ _ _ D) in K. congruence.
  Qed.
  Lemma first_config_ok ref cs o : first_config ref cs = Ok o ->
    match o with Some c => exists a b, cs = a ++ c :: b /\ about ref c /\ Forall (fun x => ~ about ref x) a | None => Forall (fun x => ~ about ref x) cs end.
  Proof.
    induction cs as [|c cs IH]; cbn [first_config]; [now intros [= <-]|]. intros H. apply bind_ok in H. destruct H as (b & B & H). apply refers_ok in B. destruct b.
    - injection H as <-. exists [], cs. split; [reflexivity|]. split; [now apply B|constructor].
    - assert (N : ~ about ref c) by (intros X; apply B in X; discriminate). specialize (IH H). destruct o as [x|]; [|now constructor]. destruct IH as (a & b & -> & A & F). exists (c :: a), b. split; [reflexivity|]. split; [exact A|now constructor].
  Qed.
  Lemma config_ok ref o : find_config root ref = Ok o -> config_of root ref o.
  Proof.
    unfold find_config. intros H. apply bind_ok in H. destruct H as (p & P & H). apply bind_ok in H. destruct H as (ps & PS & H). apply quoted_ok in PS. subst ps.
    exists p, (iterfind (can_if_path ("AR-PACKAGE", Some p)) root). split; [now apply second_part_ok|]. split; [exact (iterfind_list (can_if_path ("AR-PACKAGE", Some p)) root)|now apply first_config_ok].
  Qed.
  Section Frame.
    Context (id dlc type : string) (d1 : id <> dlc) (d2 : id <> type) (d3 : dlc <> type).
    Lemma frame_param_reads st p st' : frame_param id dlc type st p = Ok st' -> exists e, entry "VALUE" p = Ok e.
    Proof. unfold frame_param. intros H. apply bind_ok in H. destruct H as (e & E & _). now exists e. Qed.
    Lemma frame_param_ok st p st' n v : entry "VALUE" p = Ok (n, v) -> frame_param id dlc type st p = Ok st' ->
      (n = txt id /\ (exists a, int_text v a /\ fst (fst st') = Some a) \/ n <> txt id /\ fst (fst st') = fst (fst st)) /\
      (n = txt dlc /\ (exists a, int_text v a /\ snd (fst st') = Some a) \/ n <> txt dlc /\ snd (fst st') = snd (fst st)) /\
      (n = txt type /\ (exists a, (a = true <-> v = txt "EXTENDED_CAN") /\ snd st' = Some a) \/ n <> txt type /\ snd st' = snd st).
    Proof.
      intros E H. unfold frame_param in H. rewrite E in H. cbn [bind] in H. destruct st as ((i & d) & t).
      assert (NE : forall a b, n = txt a -> a <> b -> n <> txt b) by (intros a b -> K X; now apply txt_inj in X).
      destruct (is_text id n) eqn:T1; texts.
      { apply bind_ok in H. destruct H as (z & Z & H). injection H as <-. cbn [fst snd]. split; [left; split; [exact T1|]; exists z; split; [now apply int_ok|reflexivity]|].
        split; (right; split; [now apply (NE _ _ T1)|reflexivity]). }
      destruct (is_text dlc n) eqn:T2; texts.
      { apply bind_ok in H. destruct H as (z & Z & H). injection H as <-. cbn [fst snd]. split; [now right|]. split; [left; split; [exact T2|]; exists z; split; [now apply int_ok|reflexivity]|].
        right; split; [now apply (NE _ _ T2)|reflexivity]. }
      destruct (is_text type n) eqn:T3; texts; injection H as <-; cbn [fst snd].
      - split; [now right|]. split; [now right|]. left. split; [exact T3|]. eexists. split; [apply is_text_iff|reflexivity].
      - split; [now right|]. split; now right.
    Qed.
    Lemma frame_last c ps st : entries "PARAMETER-VALUES" c = Ok ps -> foldM (frame_param id dlc type) ps (None, None, None) = Ok st ->
      last_value (param c) id int_text (fst (fst st)) /\ last_value (param c) dlc int_text (snd (fst st)) /\ last_value (param c) type (fun v b => b = true <-> v = txt "EXTENDED_CAN") (snd st).
    Proof.
      intros P F. assert (E : forall i n v, in_list "VALUE" ps i n v <-> param c i n v) by (intros; symmetry; apply (entries_iff _ _ _ P)).
      split; [|split]; apply (last_value_ext _ _ _ _ _ E).
      - apply (fold_last "VALUE" _ frame_param_reads (fun st => fst (fst st)) int_text id (fun a b c0 d e X Y => proj1 (frame_param_ok a b c0 d e X Y)) _ _ _ F eq_refl).
      - apply (fold_last "VALUE" _ frame_param_reads (fun st => snd (fst st)) int_text dlc (fun a b c0 d e X Y => proj1 (proj2 (frame_param_ok a b c0 d e X Y))) _ _ _ F eq_refl).
      - apply (fold_last "VALUE" _ frame_param_reads snd _ type (fun a b c0 d e X Y => proj2 (proj2 (frame_param_ok a b c0 d e X Y))) _ _ _ F eq_refl).
    Qed.
  End Frame.
  Lemma frame_ok ref prefix i d t : In prefix ["CanIfTxPdu"; "CanIfRxPdu"] ->
    load_frame root ref (prefix ++ "CanId") (prefix ++ "Dlc") (prefix ++ "CanIdType") = Ok (i, d, t) -> frame_of root ref prefix i d t.
  Proof.
    unfold load_frame. intros I H. apply bind_ok in H. destruct H as (o & O & H). apply config_ok in O. destruct o as [c|].
    - right. exists c. split; [exact O|]. apply bind_ok in H. destruct H as (ps & P & H).
      refine (frame_last _ _ _ _ _ _ c ps (i, d, t) P H); destruct I as [<-|[<-|[]]]; discriminate.
    - left. injection H as <- <- <-. now split.
  Qed.
  (** *** Messages *)
  Lemma signal_ref_ok v part : signal_ref root v = Ok part ->
    of_kind "ComIPduSignalRef" v /\ (exists path s, child_text "VALUE-REF" v path /\ signal_at root path s /\ part = optional s) \/ ~ of_kind "ComIPduSignalRef" v /\ part = [].
  Proof.
    unfold signal_ref. intros H. apply bind_ok in H. destruct H as (d & D & H). apply text_in_ok in D. destruct (ends_with (txt "ComIPduSignalRef") d) eqn:T.
    - apply (kind_iff _ _ _ D) in T. left. split; [exact T|]. apply bind_ok in H. destruct H as (path & P & H). apply bind_ok in H. destruct H as (o & O & H). injection H as <-.
      exists path, o. split; [now apply text_or_none_ok|]. split; [now apply signal_ok|reflexivity].
    - right. injection H as <-. split; [|reflexivity]. intros K. apply (kind_iff _ _ _ D) in K. congruence.
  Qed.
  Lemma message_ok strict sort c o : keeps sort -> load_emessage strict sort root c = Ok o -> message_of root strict c o.
  Proof.
    intros K. unfold load_emessage. intros H. apply bind_ok in H. destruct H as (name & N & H). apply bind_ok in H. destruct H as (ps & P & H). apply bind_ok in H. destruct H as (dir & D & H).
    apply bind_ok in H. destruct H as (rs & R & H). apply bind_ok in H. destruct H as (ro & RO & H). apply bind_ok in H. destruct H as (ref & RF & H). apply bind_ok in H. destruct H as (((i & d) & t) & FR & H).
    destruct ro as [[|r0 r1]|]; try discriminate RF. injection RF as <-. destruct dir as [dir|]; [|discriminate FR].
    exists dir, (r0 :: r1), i, d, t. split; [exact (first_value_ok _ _ _ _ _ _ P D)|]. split; [exact (first_value_ok _ _ _ _ _ _ R RO)|]. split.
    { destruct (is_text "SEND" dir) eqn:T1; texts; [left; split; [exact T1|]; apply frame_ok; [now left|exact FR]|].
      destruct (is_text "RECEIVE" dir) eqn:T2; texts; [right; split; [exact T2|]; apply frame_ok; [now right; left|exact FR]|discriminate FR]. }
    destruct i as [i|]; [|injection H as <-; now left]. destruct d as [d|]; [|injection H as <-; now right; left]. destruct t as [t|]; [|injection H as <-; now right; right].
    apply bind_ok in H. destruct H as (l & L & H). apply bind_ok in H. destruct H as (m & M & H). injection H as <-. cbn [em_core em_signals].
    destruct (mk_message_basic _ _ _ _ _ _ _ _ _ M) as (_ & S & LE & U & FI & X & NA & ST & _).
    split; [exists name; split; [now apply text_or_none_ok|exact NA]|]. split; [now rewrite FI|]. split; [now rewrite LE|]. split; [now rewrite X|]. split; [exact ST|]. split; [exact U|].
    split; [intros s; rewrite S, (K _ s), in_map_iff; split; intros (e & A & B); now exists e|].
    eexists. exists l. split; [exact (iterfind_list (plain ["REFERENCE-VALUES"; "ECUC-REFERENCE-VALUE"]) c)|]. split; [|reflexivity]. apply mapM_ok in L. refine (f2_imp _ _ _ _ _ L). intros v part. apply signal_ref_ok.
  Qed.
  Lemma com_refs_ok c ref : com_refs c = Ok [ref] -> exists a r b,
    list_at [("ECUC-VALUES", None); ("ECUC-MODULE-CONFIGURATION-VALUES-REF-CONDITIONAL", None); ("ECUC-MODULE-CONFIGURATION-VALUES-REF", None)] c (a ++ r :: b) /\
    x_text r = ref /\ is_com r /\ Forall (fun x => ~ is_com x) (a ++ b).
  Proof.
    unfold com_refs. intros H. apply bind_ok in H. destruct H as (l & L & H). injection H as H. apply mapM_ok in L.
    pose proof (iterfind_list (plain ["ECUC-VALUES"; "ECUC-MODULE-CONFIGURATION-VALUES-REF-CONDITIONAL"; "ECUC-MODULE-CONFIGURATION-VALUES-REF"]) c) as LA. cbn [plain map] in LA, L. revert LA.
    set (vs := iterfind _ c) in *. clearbody vs.
    assert (NO : forall vs l, Forall2 (fun v o => (match x_text v with [] => Err AttributeError | t => Ok (if ends_with (txt "/Com") t then [t] else []) end) = Ok o) vs l -> List.concat l = [] -> Forall (fun x => ~ is_com x) vs).
    { clear. induction 1 as [|v o vs l Q F IH]; intros C; [constructor|]. cbn in C. apply app_eq_nil in C. destruct C as (-> & C). constructor; [|now apply IH]. intros (f & E). destruct (x_text v) as [|ch t]; [discriminate|].
      assert (Q' : Ok (if ends_with (txt "/Com") (ch :: t) then [ch :: t] else []) = Ok ([] : list chars)) by exact Q. rewrite (proj2 (ends_iff (txt "/Com") (ch :: t)) (ex_intro _ f E)) in Q'. discriminate. }
    assert (G : exists a r b, vs = a ++ r :: b /\ x_text r = ref /\ is_com r /\ Forall (fun x => ~ is_com x) (a ++ b)).
    { induction L as [|v o vs l Q F IH]; [discriminate|]. cbn in H. destruct (x_text v) as [|ch t] eqn:T; [discriminate|]. destruct (ends_with (txt "/Com") (ch :: t)) eqn:E.
      - injection Q as <-. cbn in H. injection H as H C. exists [], v, vs. split; [reflexivity|]. split; [now rewrite T|]. split; [unfold is_com; rewrite T; now apply ends_iff|]. now apply (NO vs l).
      - injection Q as <-. destruct (IH H) as (a & r & b & -> & A & B & C). exists (v :: a), r, b. split; [reflexivity|]. split; [exact A|]. split; [exact B|]. constructor; [|exact C].
        intros X. unfold is_com in X. rewrite T in X. apply ends_iff in X. congruence. }
    intros LA. destruct G as (a & r & b & -> & G). now exists a, r, b.
  Qed.
  Theorem C76_extract strict sort ms : keeps sort -> load_extract strict sort root = Ok ms -> extract_means root strict ms.
  Proof.
    intros K. unfold load_extract. destruct (find collection_path root) as [co|] eqn:CO; [|discriminate]. intros H. apply bind_ok in H. destruct H as (refs & R & H).
    destruct refs as [|ref [|? ?]]; try discriminate. apply bind_ok in H. destruct H as (p & P & H). apply bind_ok in H. destruct H as (ps & PS & H). apply quoted_ok in PS. subst ps.
    destruct (find (com_path ("AR-PACKAGE", Some p)) root) as [com|] eqn:C; [|discriminate]. apply bind_ok in H. destruct H as (l & L & H). injection H as <-.
    exists ref, p, com. split.
    { destruct (com_refs_ok _ _ R) as (a & r & b & X). exists co, a, r, b. split; [exact (find_some _ _ _ CO)|exact X]. }
    split; [now apply second_part_ok|]. split; [exact (find_some _ _ _ C)|]. exists l. split; [|reflexivity]. apply mapM_ok in L. refine (f2_imp _ _ _ _ _ L). intros c part H.
    apply bind_ok in H. destruct H as (d & D & H). apply text_in_ok in D. destruct (ends_with (txt "ComIPdu") d) eqn:T.
    - apply (kind_iff _ _ _ D) in T. left. split; [exact T|]. apply bind_ok in H. destruct H as (o & O & H). injection H as <-. exists o. split; [now apply (message_ok strict sort)|reflexivity].
    - right. injection H as <-. split; [|reflexivity]. intros X. apply (kind_iff _ _ _ D) in X. congruence.
  Qed.
End Load.

(** ** The choice of the loader *)
Lemma longest_ok ns : ~ In "}"%char ns -> ~ In lf ns -> longest_namespace (ns ++ txt "}AUTOSAR") = Some ns.
Proof.
  induction ns as [|c ns IH]; intros B L; [reflexivity|]. cbn [app]. cbn [longest_namespace]. destruct (Ascii.eqb_spec c lf) as [->|N]; [elim L; now left|].
  rewrite IH; [reflexivity|intros I; apply B; now right|intros I; apply L; now right].
Qed.
Lemma longest_sound l : forall ns, longest_namespace l = Some ns -> exists r, l = ns ++ txt "}AUTOSAR" ++ r.
Proof.
  assert (A : forall p l r, after p l = Some r -> l = p ++ r).
  { induction p as [|d p IH]; intros l' r; cbn; [now intros [= ->]|]. destruct l' as [|c l']; [discriminate|]. destruct (Ascii.eqb_spec d c) as [->|N]; [|discriminate]. intros H. now rewrite (IH _ _ H). }
  induction l as [|c l IH]; intros ns H; [discriminate|]. cbn [longest_namespace] in H.
  assert (HERE : forall n, match after (txt "}AUTOSAR") (c :: l) with Some _ => Some [] | None => None end = Some n -> exists r, c :: l = n ++ txt "}AUTOSAR" ++ r).
  { intros n X. destruct (after (txt "}AUTOSAR") (c :: l)) as [r|] eqn:E; [|discriminate]. injection X as <-. exists r. exact (A _ _ _ E). }
  destruct (Ascii.eqb c lf); [now apply HERE|]. destruct (longest_namespace l) as [n|]; [|now apply HERE]. injection H as <-. destruct (IH _ eq_refl) as (r & ->). now exists r.
Qed.
Lemma dotted_self p l : ~ In "."%char p -> forall q r, dotted (p ++ q) l = Some r -> exists l', l = p ++ l' /\ dotted q l' = Some r.
Proof.
  revert l. induction p as [|d p IH]; intros l ND q r H; [now exists l|]. destruct l as [|c l].
  - destruct d as [[] [] [] [] [] [] [] []]; discriminate H.
  - assert (D : d <> "."%char) by (intros ->; apply ND; now left). assert (X : (if Ascii.eqb c d then dotted (p ++ q) l else None) = Some r).
    { rewrite <- H. clear - D. destruct d as [[] [] [] [] [] [] [] []]; try reflexivity. now elim D. }
    destruct (Ascii.eqb_spec c d) as [->|]; [|discriminate]. destruct (IH l ltac:(intros I; apply ND; now right) _ _ X) as (l' & -> & Y). now exists l'.
Qed.
Section Choice.
  Context (from_text : chars -> option spec_float) (from_hex : chars -> result spec_float) (strict : bool) (sort : sort_arg) (limit : nat) (root : xml).
  Notation load := (load_arxml from_text from_hex strict sort limit root).
  Lemma collection_iff : is_ecu_extract root = true <-> exists c, collection root c.
  Proof.
    unfold is_ecu_extract. destruct (find collection_path root) as [c|] eqn:E; split; try discriminate; trivial; [intros _; exists c; exact (find_some _ _ _ E)|]. intros (c & C). elim (first_exists _ _ _ C (find_none _ _ E)).
  Qed.
  (** For files of AUTOSAR 4 there is nothing else to it *)
  Theorem C76_chosen ns version : x_tag root = "{"%char :: ns ++ txt "}AUTOSAR" -> ns = txt "http://autosar.org/schema/r4" ++ version -> ~ In "}"%char ns -> ~ In lf ns ->
    ((exists c, collection root c) -> forall r, load = Ok r <-> exists ms, r = Extract ms /\ load_extract strict sort root = Ok ms) /\
    (~ (exists c, collection root c) -> forall r, load = Ok r <-> exists d, r = System d /\ load_system from_text from_hex strict sort limit root = Ok d).
  Proof.
    intros T V B L. unfold load_arxml, any_namespace. rewrite T. rewrite (longest_ok _ B L).
    assert (R : recognized ns = true) by (rewrite V; reflexivity). rewrite R. split; intros C r.
    - rewrite (proj2 collection_iff C). unfold tagged. change ("{"%char :: ns ++ "}"%char :: txt "AUTOSAR") with ("{"%char :: ns ++ txt "}AUTOSAR").
      destruct (cspec ("{"%char :: ns ++ txt "}AUTOSAR") ("{"%char :: ns ++ txt "}AUTOSAR")) as [_|X]; [|now elim X].
      rewrite bind_ok. split; intros (ms & X & Y); exists ms; [injection Y as <-|subst r]; now split.
    - destruct (is_ecu_extract root) eqn:E; [elim C; now apply collection_iff|]. rewrite bind_ok. split; intros (d & X & Y); exists d; [injection Y as <-|subst r]; now split.
  Qed.
  (** Whatever is loaded is an AUTOSAR file *)
  Theorem C76_autosar r : load = Ok r -> exists ns t rest, x_tag root = "{"%char :: ns ++ txt "}AUTOSAR" ++ rest /\ ns = txt "http://autosar" ++ t.
  Proof.
    unfold load_arxml. destruct (any_namespace (x_tag root)) as [ns|] eqn:E; [|discriminate]. destruct (recognized ns) eqn:R; [|discriminate]. intros _.
    assert (N : exists t, ns = txt "http://autosar" ++ t).
    { assert (D : forall q x, dotted (txt "http://autosar" ++ q) ns = Some x -> exists t, ns = txt "http://autosar" ++ t).
      { intros q x H. assert (ND : ~ In "."%char (txt "http://autosar")) by (vm_compute; intuition discriminate). destruct (dotted_self _ _ ND _ _ H) as (t & -> & _). now exists t. }
      unfold recognized in R. destruct (dotted (txt "http://autosar.org/schema/r4") ns) as [x|] eqn:D1; [exact (D (txt ".org/schema/r4") x D1)|].
      destruct (dotted (txt "http://autosar.org/3") ns) as [x|] eqn:D2; [exact (D (txt ".org/3") x D2)|]. destruct (dotted (txt "http://autosar.org/") ns) as [x|] eqn:D3; [exact (D (txt ".org/") x D3)|discriminate R]. }
    destruct N as (t & N). unfold any_namespace in E. destruct (x_tag root) as [|c l]; [discriminate|]. destruct (Ascii.eqb_spec c "{") as [->|X].
    - destruct (longest_sound _ _ E) as (rest & ->). now exists ns, t, rest.
    - exfalso. revert E X. clear. destruct c as [[] [] [] [] [] [] [] []]; try discriminate. intros _ X. now elim X.
  Qed.
End Choice.

(** ** A concrete extract *)
Definition el (t : string) (ks : list xml) : xml := Elem (txt "{http://autosar.org/schema/r4.0}" ++ txt t) [] [] (map (fun k => (k, [])) ks).
Definition tx (t w : string) : xml := Elem (txt "{http://autosar.org/schema/r4.0}" ++ txt t) [] (txt w) [].
Definition a_param (name v : string) : xml := el "ECUC-NUMERICAL-PARAM-VALUE" [tx "DEFINITION-REF" ("/AUTOSAR/EcucDefs/" ++ name); tx "VALUE" v].
Definition a_ref (name v : string) : xml := el "ECUC-REFERENCE-VALUE" [tx "DEFINITION-REF" ("/AUTOSAR/EcucDefs/" ++ name); tx "VALUE-REF" v].
Definition a_container (name kind : string) (ps rs : list xml) : xml :=
  el "ECUC-CONTAINER-VALUE" [tx "SHORT-NAME" name; tx "DEFINITION-REF" ("/AUTOSAR/EcucDefs/" ++ kind); el "PARAMETER-VALUES" ps; el "REFERENCE-VALUES" rs].
Definition a_module (name config : string) (cs : list xml) : xml :=
  el "ECUC-MODULE-CONFIGURATION-VALUES" [tx "SHORT-NAME" name; el "CONTAINERS" [el "ECUC-CONTAINER-VALUE" [tx "SHORT-NAME" config; el "SUB-CONTAINERS" cs]]].
Definition a_signal (name pos size type order : string) : xml :=
  a_container name "Com/ComConfig/ComSignal" [a_param "ComBitPosition" pos; a_param "ComBitSize" size; a_param "ComSignalType" type; a_param "ComSignalEndianness" order] [].
Definition a_frame (name dir ref id dlc type : string) : xml :=
  a_container name ("CanIf/CanIfInitCfg/CanIf" ++ dir ++ "PduCfg") [a_param ("CanIf" ++ dir ++ "PduCanId") id; a_param ("CanIf" ++ dir ++ "PduDlc") dlc; a_param ("CanIf" ++ dir ++ "PduCanIdType") type]
    [a_ref ("CanIf" ++ dir ++ "PduRef") ref].
Definition a_pdu (name dir ref : string) (signals : list string) : xml :=
  a_container name "Com/ComConfig/ComIPdu" [a_param "ComIPduDirection" dir] (a_ref "ComPduIdRef" ref :: map (a_ref "ComIPduSignalRef") signals).
Definition an_extract (com canif : list xml) : xml :=
  el "AUTOSAR" [el "AR-PACKAGES" [el "AR-PACKAGE" [tx "SHORT-NAME" "Ecu"; el "ELEMENTS" [
    el "ECUC-VALUE-COLLECTION" [el "ECUC-VALUES" [el "ECUC-MODULE-CONFIGURATION-VALUES-REF-CONDITIONAL" [tx "ECUC-MODULE-CONFIGURATION-VALUES-REF" "/Ecu/CanIf"];
      el "ECUC-MODULE-CONFIGURATION-VALUES-REF-CONDITIONAL" [tx "ECUC-MODULE-CONFIGURATION-VALUES-REF" "/Ecu/Com"]]];
    a_module "Com" "ComConfig" com; a_module "CanIf" "CanIfInitCfg" canif]]]].
Definition example_extract : xml :=
  an_extract [a_pdu "Status" "SEND" "/Ecu/EcuC/P1" ["/Ecu/Com/ComConfig/Speed"; "/Ecu/Com/ComConfig/Gone"; "/Ecu/Com/ComConfig/Torque"]; a_signal "Speed" "0" "16" "UINT16" "LITTLE_ENDIAN";
              a_signal "Torque" " 23 " "8" "SINT8" "BIG_ENDIAN"; a_pdu "Lost" "RECEIVE" "/Ecu/EcuC/P9" []; a_pdu "Wish" "RECEIVE" "/Ecu/EcuC/P2" ["/Ecu/Com/ComConfig/Level"];
              a_signal "Level" "0" "32" "FLOAT32" "LITTLE_ENDIAN"]
             [a_frame "F2" "Rx" "/Ecu/EcuC/P2" "1234" "4" "EXTENDED_CAN"; a_frame "F1" "Tx" "/Ecu/EcuC/P1" "100" "8" "STANDARD_CAN"].
Definition the_signals (m : emessage) : list (string * Z * Z * bool * bool * bool) :=
  map (fun e => let s := es_sig e in (s_name s, s_start s, s_length s, s_big s, s_signed s, conv_is_float (s_conv s))) (em_signals m).
Definition the_messages (r : result (list emessage)) := match r with
  | Ok ms => Some (map (fun m => (m_name (em_core m), m_frame_id (em_core m), m_extended (em_core m), m_length (em_core m), the_signals m)) ms)
  | Err _ => None end.
Example C76_hypotheses :
  the_messages (load_extract true SortDefault example_extract) =
    Some [("Status", 100, false, 8, [("Speed", 0, 16, false, false, false); ("Torque", 23, 8, true, true, false)]); ("Wish", 1234, true, 4, [("Level", 0, 32, false, false, true)])] /\
  keeps SortDefault /\ (exists c, collection example_extract c) /\
  (exists ns version, x_tag example_extract = "{"%char :: ns ++ txt "}AUTOSAR" /\ ns = txt "http://autosar.org/schema/r4" ++ version /\ ~ In "}"%char ns /\ ~ In lf ns) /\
  ~ (exists c, collection (el "AUTOSAR" []) c).
Proof.
  split; [vm_compute; reflexivity|]. split; [exact keeps_default|]. split; [apply collection_iff; vm_compute; reflexivity|].
  split; [exists (txt "http://autosar.org/schema/r4.0"), (txt ".0"); repeat split; vm_compute; intuition discriminate|].
  intros C. apply collection_iff in C. vm_compute in C. discriminate.
Qed.

(** ** What an extract does not keep *)
(** Signed signals of 64 bits are read as unsigned ones, and the byte order is any text. *)
Definition wide_extract : xml :=
  an_extract [a_pdu "Status" "SEND" "/Ecu/EcuC/P1" ["/Ecu/Com/ComConfig/Wide"]; a_signal "Wide" "0" "64" "SINT64" "OPAQUE"] [a_frame "F1" "Tx" "/Ecu/EcuC/P1" "100" "8" "STANDARD_CAN"].
Lemma wide_loads : exists ms m e, load_extract true SortDefault wide_extract = Ok ms /\ In m ms /\ In e (em_signals m) /\ s_name (es_sig e) = "Wide" /\ s_signed (es_sig e) = false /\ es_order e = txt "opaque".
Proof. eexists. eexists. eexists. split; [vm_compute; reflexivity|]. split; [left; reflexivity|]. split; [left; reflexivity|]. repeat split. Qed.
Definition signed_type (v : chars) : Prop := exists bits, v = txt "SINT" ++ bits.
Theorem C76_sign_refuted : ~ (forall root strict sort ms m e pkg c i v,
  load_extract strict sort root = Ok ms -> In m ms -> In e (em_signals m) ->
  first_at (package pkg ++ module "Com" "ComConfig" ++ [("ECUC-CONTAINER-VALUE", Some (txt (s_name (es_sig e))))]) root c ->
  param c i (txt "ComSignalType") v -> signed_type v -> s_signed (es_sig e) = true).
Proof.
  intros H. set (c := a_signal "Wide" "0" "64" "SINT64" "OPAQUE").
  assert (P : param c 2 (txt "ComSignalType") (txt "SINT64")).
  { destruct (entries "PARAMETER-VALUES" c) as [l|] eqn:L; [|vm_compute in L; discriminate]. apply (entries_iff _ _ _ L). vm_compute in L. injection L as L. subst l. eexists. split; [reflexivity|]. eapply value_iff; [vm_compute; reflexivity|]. split; reflexivity. }
  assert (F : first_at (package (txt "Ecu") ++ module "Com" "ComConfig" ++ [("ECUC-CONTAINER-VALUE", Some (txt "Wide"))]) wide_extract c) by (apply find_some; vm_compute; reflexivity).
  destruct wide_loads as (ms & m & e & L & M & E & N & S & _). rewrite <- N in F.
  specialize (H _ _ _ ms m e (txt "Ecu") c 2%nat (txt "SINT64") L M E F P (ex_intro _ (txt "64") eq_refl)). congruence.
Qed.
Theorem C76_order_refuted : ~ (forall root strict sort ms m e,
  load_extract strict sort root = Ok ms -> In m ms -> In e (em_signals m) -> es_order e = txt "little_endian" \/ es_order e = txt "big_endian").
Proof.
  intros H. destruct wide_loads as (ms & m & e & L & M & E & _ & _ & O). specialize (H _ _ _ ms m e L M E). rewrite O in H. destruct H; discriminate.
Qed.
