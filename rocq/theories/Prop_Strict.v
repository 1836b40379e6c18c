(** Prop_Strict: C62, the strict checks of containers and gather_container (can/message.py encode, assert_container_encodable,
    gather_container). *)
From Coq Require Import Floats.SpecFloat.
From Verif Require Import Base PyNum Conversion Signal Formats Message Container LayoutSpec CodecSpec
     DictLemmas BitsLemmas NodeProofs Construct CodecThms RoundTrip MsgThms Examples Prop_Codec Prop_Container Database.

(** ** Specification *)
(** Exactly one element of the list has the property. *)
Definition the_one {A} (P : A -> Prop) (l : list A) (x : A) : Prop := exists a b, l = a ++ x :: b /\ P x /\ Forall (fun y => ~ P y) (a ++ b).
(** A header refers to the only contained message of that name or header id. *)
Definition refers (c : container) (h : header) (x : contained) : Prop :=
  match h with
  | HName n => the_one (fun y => m_name (ct_msg y) = n) (cn_contained c) x
  | HInt z => the_one (fun y => ct_header y = Some z) (cn_contained c) x
  | HMsg y => exists z, ct_header y = Some z /\ the_one (fun y => ct_header y = Some z) (cn_contained c) x
  end.
(** Bytes under a header id are not checked; other bytes have the length of the message, and signal values are encoded by the strict message. *)
Definition admissible (c : container) (scaling padding : bool) (it : header * payload) : Prop :=
  match it with
  | (HInt _, PBytes _) => True
  | (h, PBytes l) => exists x, refers c h x /\ zlen l = m_length (ct_msg x)
  | (h, PDict d) => exists x body, refers c h x /\ encode (ct_msg x) d scaling padding true = Ok body
  end.

(** ** Lookups *)
Lemma filter_none {A} (f : A -> bool) l : Forall (fun y => ~ f y = true) l -> filter f l = [].
Proof. induction 1 as [|y l N F IH]; [reflexivity|]. cbn [filter]. destruct (f y); [contradiction N; reflexivity|exact IH]. Qed.
Lemma filter_the_one {A} (f : A -> bool) (P : A -> Prop) l x : (forall y, f y = true <-> P y) -> filter f l = [x] <-> the_one P l x.
Proof.
  intros E. split.
  - induction l as [|y l IH]; intros H; [discriminate|]. cbn [filter] in H. destruct (f y) eqn:F.
    + injection H as -> H. exists [], l. split; [reflexivity|]. split; [now apply E|]. cbn [app]. rewrite Forall_forall. intros z I N. apply E in N.
      assert (J : In z (filter f l)) by (apply filter_In; auto). rewrite H in J. exact J.
    + destruct (IH H) as (a & b & -> & P1 & N). exists (y :: a), b. split; [reflexivity|]. split; [exact P1|]. cbn [app]. constructor; [|exact N]. rewrite <- E, F. discriminate.
  - intros (a & b & -> & P1 & N). apply Forall_app in N. destruct N as [N1 N2]. rewrite filter_app. cbn [filter]. rewrite (proj2 (E x) P1).
    rewrite !filter_none; [reflexivity| |]; eapply Forall_impl; try eassumption; intros y NY Y; apply NY, E, Y.
Qed.
Lemma by_id_refers c z x : by_header_id c (Some z) = Ok (Some x) <-> the_one (fun y => ct_header y = Some z) (cn_contained c) x.
Proof.
  rewrite <- (filter_the_one (fun y => option_eqb Z.eqb (ct_header y) (Some z))) by (intros y; apply opt_eqb_spec).
  unfold by_header_id. destruct (filter _ _) as [|y [|]]; split; intros H; try discriminate; injection H as ->; reflexivity.
Qed.
Lemma by_name_refers c n x : by_name c n = Ok (Some x) <-> the_one (fun y => m_name (ct_msg y) = n) (cn_contained c) x.
Proof.
  rewrite <- (filter_the_one (fun y => String.eqb (m_name (ct_msg y)) n)) by (intros y; apply String.eqb_eq).
  unfold by_name. destruct (filter _ _) as [|y [|]]; split; intros H; try discriminate; injection H as ->; reflexivity.
Qed.
Lemma strict_refers c h x : find_contained_strict c h = Ok (Some x) <-> refers c h x.
Proof.
  destruct h as [n|y|z]; cbn [find_contained_strict find_contained refers]; [apply by_name_refers| |apply by_id_refers].
  destruct (ct_header y) as [z|]; [|split; [discriminate|intros (z & E & _); discriminate E]]. rewrite by_id_refers. split; [eauto|]. intros (z' & E & H). now injection E as ->.
Qed.
Lemma refers_found c h x : refers c h x -> find_contained c h = Ok (Some x).
Proof.
  destruct h as [n|y|z]; cbn [find_contained refers]; [apply by_name_refers| |apply by_id_refers]. intros (z & E & H). rewrite E. now apply by_id_refers.
Qed.

(** ** C62 *)
Lemma strict_encode m d scaling padding body : encode m d scaling padding true = Ok body <->
  assert_signals_encodable (m_signals m) (m_codec m) d scaling = Ok tt /\ encode m d scaling padding false = Ok body.
Proof.
  unfold encode. destruct (assert_signals_encodable (m_signals m) (m_codec m) d scaling) as [[]|e]; cbn [bind]; [tauto|]. split; [discriminate|intros [H _]; discriminate H].
Qed.
Lemma checks_admissible c scaling padding items : forall bytes, encode_items c items scaling padding = Ok bytes ->
  (assert_container_encodable c items scaling = Ok tt <-> Forall (admissible c scaling padding) items).
Proof.
  induction items as [|[h p] r IH]; intros bytes E; [split; [constructor|reflexivity]|]. cbn [encode_items] in E.
  apply bind_ok in E. destruct E as (o & F & E). apply bind_ok in E. destruct E as (id & _ & E). apply bind_ok in E. destruct E as (body & B & E). apply bind_ok in E. destruct E as (hd & _ & E). apply bind_ok in E. destruct E as (ln & _ & E).
  apply bind_ok in E. destruct E as (rest & R & _). specialize (IH rest R). rewrite Forall_cons_iff, <- IH. cbn [assert_container_encodable].
  assert (IT : (match h, p with
        | HInt _, PBytes _ => Ok tt
        | _, _ =>
            let* o := find_contained_strict c h in
            match o with
            | None => Err EncodeError
            | Some x =>
                match p with
                | PBytes l => if zlen l =? m_length (ct_msg x) then Ok tt else Err EncodeError
                | PDict d => assert_signals_encodable (m_signals (ct_msg x)) (m_codec (ct_msg x)) d scaling
                end
            end
        end = Ok tt) <-> admissible c scaling padding (h, p)).
  { assert (G : (let* o := find_contained_strict c h in
            match o with
            | None => Err EncodeError
            | Some x =>
                match p with
                | PBytes l => if zlen l =? m_length (ct_msg x) then Ok tt else Err EncodeError
                | PDict d => assert_signals_encodable (m_signals (ct_msg x)) (m_codec (ct_msg x)) d scaling
                end
            end) = Ok tt <->
            match p with
            | PBytes l => exists x, refers c h x /\ zlen l = m_length (ct_msg x)
            | PDict d => exists x body, refers c h x /\ encode (ct_msg x) d scaling padding true = Ok body
            end).
    { split.
      - intros H. apply bind_ok in H. destruct H as ([x|] & Q & H); [|discriminate]. apply strict_refers in Q. rewrite (refers_found c h x Q) in F. injection F as <-. destruct p as [l|d].
        + exists x. split; [exact Q|]. destruct (Z.eqb_spec (zlen l) (m_length (ct_msg x))); [assumption|discriminate].
        + exists x, body. split; [exact Q|]. apply strict_encode. split; [exact H|exact B].
      - destruct p as [l|d].
        + intros (x & Q & L). rewrite (proj2 (strict_refers c h x) Q). cbn [bind]. rewrite L, Z.eqb_refl. reflexivity.
        + intros (x & b & Q & L). rewrite (proj2 (strict_refers c h x) Q). cbn [bind]. now apply strict_encode in L. }
    destruct h, p; try exact G. cbn. tauto. }
  split.
  - intros H. apply bind_ok in H. destruct H as ([] & H1 & H2). split; [now apply IT|exact H2].
  - intros [H1 H2]. apply IT in H1. rewrite H1. cbn [bind]. exact H2.
Qed.
(** Strict encoding of a container gives what encoding without the checks gives, and succeeds in addition only if every element is admissible. *)
Theorem C62_strict e items scaling padding bytes : e_contained e <> [] ->
  entry_encode e (IItems items) scaling padding true = Ok bytes <->
  entry_encode e (IItems items) scaling padding false = Ok bytes /\ Forall (admissible (e_container e) scaling padding) items.
Proof.
  intros NE. unfold entry_encode. assert (IC : is_container (e_container e) = true) by (unfold is_container, e_container; cbn; now destruct (e_contained e)). rewrite IC. unfold encode_container. cbn [bind]. split.
  - intros H. apply bind_ok in H. destruct H as ([] & A & H). split; [exact H|]. now apply (checks_admissible _ _ _ _ bytes H).
  - intros [H A]. apply (checks_admissible _ _ _ _ bytes H) in A. rewrite A. exact H.
Qed.
(** gather_container finds every header's message and gathers the signals of each. *)
Theorem C62_gather c hs d l : gather_container c hs d = Ok l <->
  Forall2 (fun h p => refers c h (fst p) /\ gather_signals (ct_msg (fst p)) d = Ok (snd p)) hs l.
Proof.
  revert l. induction hs as [|h hs IH]; intros l; cbn [gather_container]; [split; [intros H; injection H as <-; constructor|intros H; inversion H; reflexivity]|].
  assert (L : forall x, match h with HMsg x => match ct_header x with None => Err AssertionError | Some z => by_header_id c (Some z) end | _ => find_contained c h end = Ok (Some x) <-> refers c h x).
  { intros x. rewrite <- strict_refers. destruct h as [n|y|z]; cbn [find_contained_strict find_contained]; try tauto. destruct (ct_header y); [tauto|]. split; discriminate. }
  split.
  - intros H. apply bind_ok in H. destruct H as ([x|] & Q & H); [|discriminate]. apply L in Q. apply bind_ok in H. destruct H as (s & G & H). apply bind_ok in H. destruct H as (tl & T & H). injection H as <-.
    constructor; [split; assumption|now apply IH].
  - intros H. inversion H as [|? [x s] ? tl [Q G] T]; subst. cbn [fst snd] in Q, G. apply L in Q. rewrite Q. cbn [bind]. rewrite G. cbn [bind]. apply IH in T. rewrite T. reflexivity.
Qed.
(** The gathered values of a message are the given values of exactly the signals that the values select. *)
Theorem C62_gathered_values c hs d l : (forall x, In x (cn_contained c) -> strict_message (ct_msg x)) -> gather_container c hs d = Ok l ->
  Forall2 (fun h p => refers c h (fst p) /\ NoDup (map fst (snd p)) /\
    forall k v, sget (snd p) k = Some v <-> sget d k = Some v /\ exists s, selected (ct_msg (fst p)) d s /\ s_name s = k) hs l.
Proof.
  intros S H. apply C62_gather in H. induction H as [|h [x s] hs l [Q G] _ IH]; [constructor|]. constructor; [|exact IH]. cbn [fst snd] in *. split; [exact Q|].
  apply C11_gather_exact; [|exact G]. apply S.
  assert (O : exists P, the_one P (cn_contained c) x) by (destruct h as [n|y|z]; [| |]; cbn in Q; [eauto|destruct Q as (z & _ & Q); eauto|eauto]).
  destruct O as (P & a & b & -> & _). apply in_app_iff. right. now left.
Qed.

(** ** Examples *)
Local Open Scope string_scope.
Local Open Scope Z_scope.
Local Open Scope list_scope.
Definition ex_box : entry := mkEntry (mkMessage 77 false "Box" 64 0 [] true (m_codec flat_msg) (m_tree flat_msg)) true [ex_contained; flat_contained].
Definition ex_items : list (header * payload) :=
  [(HName "Ex", PDict ex_data); (HInt 66051, PBytes [1]); (HMsg flat_contained, PBytes [1; 2; 3])].
Definition ex_short : list (header * payload) := [(HName "Flat", PBytes [1])].
(** Three elements are encoded strictly.  Bytes that are too short for the named message are refused by the strict encoder only. *)
Example C62_hypotheses : e_contained ex_box <> [] /\
  (exists b, entry_encode ex_box (IItems ex_items) false true true = Ok b /\ zlen b = 24) /\
  (exists b, entry_encode ex_box (IItems ex_short) false true false = Ok b /\ zlen b = 5) /\
  entry_encode ex_box (IItems ex_short) false true true = Err EncodeError.
Proof.
  split; [discriminate|]. split; [eexists; split; vm_compute; reflexivity|]. split; [eexists; split; vm_compute; reflexivity|]. vm_compute; reflexivity.
Qed.
Example C62_gather_hypotheses : (forall x, In x (cn_contained (ex_container true)) -> strict_message (ct_msg x)) /\
  exists l, gather_container (ex_container true) [HName "Flat"; HInt 10] (("X", VNum (NInt 1)) :: ("Y", VNum (NInt 2)) :: ("Unused", VNum (NInt 3)) :: ex_data) = Ok l /\
    map (fun p => map fst (snd p)) l = [["X"; "Y"]; ["Mux"; "State"; "Speed"; "F"; "Sub"; "B"; "E"]].
Proof.
  split; [intros x [<-|[<-|[]]]; [exact ex_strict|exact flat_strict]|]. eexists. split; vm_compute; reflexivity.
Qed.
