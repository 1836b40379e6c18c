(** Prop_Expect: properties C33 and C34, the input side of the tester. *)
From Coq Require Import Permutation.
From Verif Require Import Base PyNum Conversion Signal Message Container Database Tester
     LayoutSpec DictLemmas NodeProofs CodecSpec Examples Prop_Database.

(** ** Specification *)

(** All messages that were received and neither returned nor dropped, oldest first. *)
Definition pending (b : inbox) : list decoded := ib_list b ++ ib_queue b.

(** The message is one the caller of expect asks for. *)
Definition wanted (name : string) (want : list (string * value)) (m : decoded) : Prop :=
  d_name m = name /\
  forall n v, In (n, v) want -> exists x, sget (d_signals m) n = Some x /\ value_eq x v = true.

(** Messages of the expected name contain the expected signals. *)
Definition answerable (name : string) (want : list (string * value)) (m : decoded) : Prop :=
  d_name m = name -> forall n v, In (n, v) want -> exists x, sget (d_signals m) n = Some x.

(** What an expect call may do with the pending messages [p] (those received during the call
    included): it looks at a prefix of them, returns the first wanted one, and drops exactly the
    unwanted ones it looked at if told so.  Without a timeout it always returns a message. *)
Definition expect_spec (name : string) (want : list (string * value)) (timeout discard : bool)
           (p : list decoded) (o : expected) (p' : list decoded) : Prop :=
  match o with
  | Got m => exists x y, p = x ++ m :: y /\ wanted name want m /\ (forall u, In u x -> ~ wanted name want u) /\
                         p' = if discard then y else x ++ y
  | NoMessage => timeout = true /\
                 exists x y, p = x ++ y /\ (forall u, In u x -> ~ wanted name want u) /\
                             p' = if discard then y else x ++ y
  | Raised _ => False
  end.

(** ** Proofs *)

Lemma all_equal_spec got want :
  (forall n v, In (n, v) want -> exists x, sget got n = Some x) ->
  exists b, all_equal got want = Ok b /\
    (b = true <-> forall n v, In (n, v) want -> exists x, sget got n = Some x /\ value_eq x v = true).
Proof.
  induction want as [|[n v] r IH]; intros H; cbn [all_equal].
  - exists true. split; [reflexivity|]. split; [intros _ ? ? []|reflexivity].
  - destruct (H n v (or_introl eq_refl)) as [x Hx]. unfold sget_exn. rewrite Hx. cbn [bind].
    destruct IH as (b & E & Hb); [intros; apply (H n0 v0); now right|].
    destruct (value_eq x v) eqn:EV.
    + exists b. split; [exact E|]. rewrite Hb. split.
      * intros G k w [[= <- <-]|HI]; [eauto|auto].
      * intros G k w HI. apply G. now right.
    + exists false. split; [reflexivity|]. split; [discriminate|].
      intros G. destruct (G n v (or_introl eq_refl)) as (y & Hy & Hv). congruence.
Qed.

Lemma filter_spec name want m : answerable name want m ->
  exists b, filter_expected name want m = Ok b /\ (b = true <-> wanted name want m).
Proof.
  intros A. unfold filter_expected, wanted. destruct (String.eqb_spec (d_name m) name) as [E|E].
  - destruct (all_equal_spec (d_signals m) want) as (b & Eb & Hb); [intros; eapply A; eauto|].
    exists b. split; [exact Eb|]. rewrite Hb. tauto.
  - exists false. split; [reflexivity|]. split; [discriminate|tauto].
Qed.

Lemma filter_true name want m : answerable name want m -> filter_expected name want m = Ok true -> wanted name want m.
Proof. intros A E. destruct (filter_spec _ _ _ A) as (b & E' & H). rewrite E in E'. apply Ok_inj in E'. subst b. now apply H. Qed.
Lemma filter_false name want m : answerable name want m -> filter_expected name want m = Ok false -> ~ wanted name want m.
Proof. intros A E W. destruct (filter_spec _ _ _ A) as (b & E' & H). rewrite E in E'. apply Ok_inj in E'. subst b. apply H in W. discriminate. Qed.
Lemma filter_err name want m e : answerable name want m -> filter_expected name want m <> Err e.
Proof. intros A E. destruct (filter_spec _ _ _ A) as (b & E' & H). congruence. Qed.

Lemma expect_list_spec name want discard inl : Forall (answerable name want) inl -> forall others o l,
  (forall u, In u others -> ~ wanted name want u) ->
  expect_list (filter_expected name want) discard inl others = (o, l) ->
  match o with
  | Got m => exists x y, inl = x ++ m :: y /\ wanted name want m /\ (forall u, In u (others ++ x) -> ~ wanted name want u) /\
                         l = if discard then y else (others ++ x) ++ y
  | NoMessage => (forall u, In u (others ++ inl) -> ~ wanted name want u) /\ l = if discard then [] else others ++ inl
  | Raised _ => False
  end.
Proof.
  induction 1 as [|m r A F IH]; intros others o l HO; cbn [expect_list].
  - intros [= <- <-]. rewrite app_nil_r. auto.
  - destruct (filter_expected name want m) as [[|]|e] eqn:E.
    + intros [= <- <-]. exists [], r. rewrite app_nil_r. split; [reflexivity|]. split; [apply filter_true; auto|]. split; [exact HO|reflexivity].
    + intros G. apply IH in G; [|intros u Hu; apply in_app_or in Hu; destruct Hu as [Hu|[<-|[]]]; [auto|apply filter_false; auto]].
      destruct o as [g| |e']; [| |exact G].
      * destruct G as (x & y & -> & W & N & L). exists (m :: x), y. rewrite <- app_assoc in N.
        split; [reflexivity|]. split; [exact W|]. split; [exact N|]. rewrite L. destruct discard; [reflexivity|].
        rewrite <- !app_assoc. reflexivity.
      * destruct G as [N L]. rewrite <- app_assoc in N, L. split; [exact N|]. rewrite L. destruct discard; reflexivity.
    + exfalso. eapply filter_err; eauto.
Qed.

(** [x] is what the call has looked at and kept so far. *)
Lemma queue_run_spec name want timeout discard b rs o b' :
  queue_run (filter_expected name want) timeout discard b rs o b' ->
  forall x, Forall (answerable name want) (ib_queue b ++ rs) ->
    (forall u, In u x -> ~ wanted name want u) -> (if discard then ib_list b = [] else ib_list b = x) ->
    expect_spec name want timeout discard (x ++ ib_queue b ++ rs) o (pending b').
Proof.
  induction 1 as [l q m rs o b R IH|l T|l m q e E|l m q E|l m q E T|l m q rs o b E R IH]; intros x A N L; cbn [ib_list ib_queue] in *.
  - cbn [ib_list ib_queue] in IH. rewrite <- !app_assoc in IH. cbn [app] in IH. apply IH; auto.
  - cbn [expect_spec]. split; [exact T|]. exists x, []. split; [reflexivity|]. split; [exact N|].
    unfold pending. cbn. destruct discard; subst l; reflexivity.
  - exfalso. inversion A; subst. eapply filter_err; eauto.
  - inversion A; subst. exists x, q. rewrite app_nil_r. split; [reflexivity|]. split; [apply filter_true; auto|].
    split; [exact N|]. unfold pending. cbn. destruct discard; subst l; reflexivity.
  - inversion A; subst. split; [reflexivity|]. exists (x ++ [m]), q. rewrite app_nil_r, <- app_assoc. split; [reflexivity|]. split.
    + intros u Hu. apply in_app_or in Hu. destruct Hu as [Hu|[<-|[]]]; [auto|apply filter_false; auto].
    + unfold pending. cbn. destruct discard; subst l; [reflexivity|]. now rewrite <- app_assoc.
  - inversion A; subst. replace (x ++ (m :: q) ++ rs) with ((x ++ [m]) ++ q ++ rs) by now rewrite <- app_assoc.
    apply IH; auto.
    + intros u Hu. apply in_app_or in Hu. destruct Hu as [Hu|[<-|[]]]; [auto|apply filter_false; auto].
    + destruct discard; subst l; reflexivity.
Qed.

Lemma expect_run_spec name want timeout discard b rs o b' :
  Forall (answerable name want) (pending b ++ rs) ->
  expect_run name want timeout discard b rs o b' ->
  expect_spec name want timeout discard (pending b ++ rs) o (pending b').
Proof.
  intros A R. unfold pending in A. rewrite <- app_assoc in A. apply Forall_app in A. destruct A as [A1 A2].
  unfold pending. destruct R as [b rs o l E NM|b rs o l b' E R].
  - apply expect_list_spec in E; auto. destruct o as [m| |e]; [|contradiction|contradiction].
    destruct E as (x & y & -> & W & N & ->). exists x, (y ++ ib_queue b ++ rs). cbn [app] in *.
    split; [now rewrite <- !app_assoc|]. split; [exact W|]. split; [exact N|]. cbn.
    destruct discard; [|rewrite <- app_assoc]; reflexivity.
  - apply expect_list_spec in E; auto. destruct E as [N ->]. cbn [app] in N.
    rewrite <- app_assoc. apply (queue_run_spec _ _ _ _ _ _ _ _ R).
    + exact A2. + exact N. + cbn. destruct discard; reflexivity.
Qed.

(** ** C34: every expect call, however it is interleaved with receptions *)
Theorem C34_expect name want timeout discard b rs o b' :
  Forall (answerable name want) (pending b ++ rs) ->
  expect_run name want timeout discard b rs o b' ->
  match o with
  | Got m => exists x y, pending b ++ rs = x ++ m :: y /\ wanted name want m /\ (forall u, In u x -> ~ wanted name want u)
  | NoMessage => timeout = true
  | Raised _ => False
  end.
Proof.
  intros A R. apply expect_run_spec in R; auto. destruct o as [m| |e]; [|apply R|exact R].
  destruct R as (x & y & E & W & N & _). eauto.
Qed.

(** If a wanted message is pending, a call without timeout returns the oldest one at once. *)
Theorem C34_found name want discard b : Forall (answerable name want) (pending b) ->
  (exists m, In m (pending b) /\ wanted name want m) ->
  exists m b', expect_run name want false discard b [] (Got m) b' /\
    forall o b'', expect_run name want false discard b [] o b'' -> o = Got m /\ pending b'' = pending b'.
Proof.
  intros A (w & Hw & Ww).
  assert (EX : exists m b', expect_run name want false discard b [] (Got m) b').
  { unfold pending in A, Hw. apply Forall_app in A. destruct A as [A1 A2].
    destruct (expect_list (filter_expected name want) discard (ib_list b) []) as [o l] eqn:E.
    pose proof E as E'. apply expect_list_spec in E; auto. destruct o as [m| |e]; [| |contradiction].
    - exists m, (mkInbox l (ib_queue b ++ [])). apply er_list; [exact E'|discriminate].
    - destruct E as [N _]. cbn [app] in N. apply in_app_or in Hw. destruct Hw as [Hw|Hw]; [now apply N in Hw|].
      clear N A1. assert (Q : forall q l, Forall (answerable name want) q -> In w q ->
        exists m b', queue_run (filter_expected name want) false discard (mkInbox l q) [] (Got m) b').
      { induction q as [|m q IH]; intros l0 Aq Hq; [contradiction|]. inversion Aq; subst.
        destruct (filter_spec name want m) as ([|] & E1 & E2); [assumption| |].
        - eauto using qr_match.
        - destruct Hq as [->|Hq]; [apply E2 in Ww; discriminate|].
          destruct (IH (if discard then l0 else l0 ++ [m]) H2 Hq) as (m' & b' & R). eauto using qr_next. }
      destruct (Q (ib_queue b) l A2 Hw) as (m & b' & R). exists m, b'. eapply er_queue; eauto. }
  destruct EX as (m & b' & R). exists m, b'. split; [exact R|]. intros o b'' R'.
  apply expect_run_spec in R; [|now rewrite app_nil_r]. apply expect_run_spec in R'; [|now rewrite app_nil_r].
  rewrite app_nil_r in *. destruct R as (x & y & E & W & N & P).
  destruct o as [m'| |e]; [|destruct R' as [[=] _]|contradiction].
  destruct R' as (x' & y' & E' & W' & N' & P').
  assert (G : forall x x', x ++ m :: y = x' ++ m' :: y' ->
     (forall u, In u x -> ~ wanted name want u) -> (forall u, In u x' -> ~ wanted name want u) -> x = x' /\ m = m' /\ y = y').
  { clear -W W'. induction x as [|a x IH]; intros [|a' x'] H N N'; cbn in H.
    - injection H as -> ->. auto.
    - injection H as -> H. exfalso. apply (N' a'); [now left|assumption].
    - injection H as -> H. exfalso. apply (N m'); [now left|assumption].
    - injection H as -> H. destruct (IH x' H) as (-> & -> & ->); auto.
      + intros u Hu. apply N. now right. + intros u Hu. apply N'. now right. }
  destruct (G x x') as (-> & -> & ->); auto; [congruence|]. rewrite P, P'. auto.
Qed.

(** ** C33: histories *)

(** What a user and the bus can do to a tester; [HExpect] and [HFlush] carry the messages that
    arrive during the call. *)
Inductive happening :=
| HReceive (m : decoded)
| HExpect (name : string) (want : list (string * value)) (timeout discard : bool) (rs : list decoded) (o : expected)
| HFlush (early late : list decoded).

Definition received (h : happening) : list decoded :=
  match h with HReceive m => [m] | HExpect _ _ _ _ rs _ => rs | HFlush e l => e ++ l end.
Definition returned (h : happening) : list decoded :=
  match h with HExpect _ _ _ _ _ (Got m) => [m] | _ => [] end.
(** Calls that are told to drop messages. *)
Definition may_drop (h : happening) : bool :=
  match h with HReceive _ => false | HExpect _ _ _ discard _ _ => discard | HFlush _ _ => true end.

Inductive happens : inbox -> happening -> inbox -> Prop :=
| hp_receive l q m : happens (mkInbox l q) (HReceive m) (mkInbox l (q ++ [m]))
| hp_expect b name want t d rs o b' : expect_run name want t d b rs o b' -> happens b (HExpect name want t d rs o) b'
| hp_flush b e l : happens b (HFlush e l) (flush b l).

Inductive history : inbox -> list happening -> inbox -> Prop :=
| hi_nil b : history b [] b
| hi_cons b h b' hs b'' : happens b h b' -> history b' hs b'' -> history b (h :: hs) b''.

(** Expected signals exist. *)
Definition well_asked (received : list decoded) (h : happening) : Prop :=
  match h with HExpect name want _ _ _ _ => Forall (answerable name want) received | _ => True end.

(** [subseq a b]: a results from b by leaving out elements *)
Inductive subseq {A} : list A -> list A -> Prop :=
| sub_nil : subseq [] []
| sub_skip x a b : subseq a b -> subseq a (x :: b)
| sub_keep x a b : subseq a b -> subseq (x :: a) (x :: b).

Lemma subseq_refl {A} (l : list A) : subseq l l.
Proof. induction l; [apply sub_nil|apply sub_keep; auto]. Qed.
Lemma subseq_nil {A} (l : list A) : subseq [] l.
Proof. induction l; [apply sub_nil|apply sub_skip; auto]. Qed.
Lemma subseq_app {A} (a b c d : list A) : subseq a b -> subseq c d -> subseq (a ++ c) (b ++ d).
Proof. induction 1; cbn; intros; auto; [apply sub_skip|apply sub_keep]; auto. Qed.
Lemma subseq_trans {A} (a b c : list A) : subseq a b -> subseq b c -> subseq a c.
Proof.
  intros H1 H2. revert a H1. induction H2 as [|x b c H IH|x b c H IH]; intros a H1.
  - exact H1. - apply sub_skip. auto.
  - inversion H1; subst; [apply sub_skip|apply sub_keep]; auto.
Qed.
Lemma subseq_in {A} (a b : list A) x : subseq a b -> In x a -> In x b.
Proof. induction 1; cbn; intros; intuition. Qed.

Lemma happens_spec all b h b' : happens b h b' -> well_asked all h ->
  subseq (pending b ++ received h) all ->
  exists dropped, Permutation (pending b ++ received h) (returned h ++ dropped ++ pending b') /\
    subseq (pending b') (pending b ++ received h) /\ (may_drop h = false -> dropped = []).
Proof.
  intros H W S. destruct H as [l q m|b name want t d rs o b' R|b e l]; cbn [received returned may_drop] in *.
  - exists []. cbn. unfold pending. cbn. rewrite <- app_assoc. split; [reflexivity|]. split; [apply subseq_refl|auto].
  - cbn [well_asked] in W. apply expect_run_spec in R.
    2:{ rewrite Forall_forall in *. intros x Hx. apply W. eapply subseq_in; eauto. }
    destruct o as [m| |e]; cbn [expect_spec] in R; [| |contradiction].
    + destruct R as (x & y & -> & _ & _ & ->). destruct d.
      * exists x. cbn. split; [|split; [|discriminate]].
        -- rewrite <- Permutation_middle. reflexivity.
        -- change y with ([] ++ y) at 1. apply subseq_app; [apply subseq_nil|]. apply sub_skip. apply subseq_refl.
      * exists []. cbn. split; [|split; [|reflexivity]].
        -- rewrite <- Permutation_middle. reflexivity.
        -- apply subseq_app; [apply subseq_refl|]. apply sub_skip. apply subseq_refl.
    + destruct R as (_ & x & y & -> & _ & ->). destruct d.
      * exists x. cbn. split; [reflexivity|]. split; [|discriminate].
        change y with ([] ++ y) at 1. apply subseq_app; [apply subseq_nil|apply subseq_refl].
      * exists []. cbn. split; [reflexivity|]. split; [apply subseq_refl|auto].
  - exists (pending b ++ e). unfold flush, pending. cbn. rewrite <- !app_assoc. split; [reflexivity|]. split; [|discriminate].
    rewrite !app_assoc. change l with ([] ++ l) at 1. apply subseq_app; [apply subseq_nil|apply subseq_refl].
Qed.

Definition all_received (hs : list happening) : list decoded := flat_map received hs.
Definition all_returned (hs : list happening) : list decoded := flat_map returned hs.

Lemma history_spec all b hs b' : history b hs b' -> Forall (well_asked all) hs ->
  subseq (pending b ++ all_received hs) all ->
  exists dropped, Permutation (pending b ++ all_received hs) (all_returned hs ++ dropped ++ pending b') /\
    subseq (pending b') (pending b ++ all_received hs) /\ (forallb (fun h => negb (may_drop h)) hs = true -> dropped = []).
Proof.
  induction 1 as [b|b h b' hs b'' H Hs IH]; intros W S.
  - exists []. cbn. rewrite app_nil_r. split; [reflexivity|]. split; [apply subseq_refl|auto].
  - inversion W; subst. cbn [all_received flat_map all_returned] in *. rewrite app_assoc in *.
    destruct (happens_spec all _ _ _ H) as (d1 & P1 & S1 & D1); auto.
    { eapply subseq_trans; [|exact S]. rewrite <- (app_nil_r (pending b ++ received h)) at 1.
      apply subseq_app; [apply subseq_refl|apply subseq_nil]. }
    assert (S2 : subseq (pending b' ++ all_received hs) ((pending b ++ received h) ++ all_received hs))
      by (apply subseq_app; [exact S1|apply subseq_refl]).
    destruct IH as (d2 & P2 & S3 & D2); auto. { eapply subseq_trans; eauto. }
    exists (d1 ++ d2). split; [|split].
    + rewrite P1. rewrite <- !app_assoc. apply Permutation_app_head.
      rewrite (Permutation_app_comm (flat_map returned hs)). rewrite <- !app_assoc. apply Permutation_app_head.
      unfold all_received, all_returned in P2. rewrite P2, Permutation_app_comm. rewrite <- app_assoc. reflexivity.
    + eapply subseq_trans; eauto.
    + cbn [forallb]. rewrite andb_true_iff, negb_true_iff. intros [E1 E2]. rewrite (D1 E1), (D2 E2). reflexivity.
Qed.

(** Whatever happens to a new tester: every received message is returned by exactly one expect, or
    was dropped by a call that is documented to drop messages, or is still pending; pending messages
    are kept in the order of reception. *)
Theorem C33_no_loss hs b : history (mkInbox [] []) hs b -> Forall (well_asked (all_received hs)) hs ->
  exists dropped, Permutation (all_received hs) (all_returned hs ++ dropped ++ pending b) /\
    subseq (pending b) (all_received hs) /\ (forallb (fun h => negb (may_drop h)) hs = true -> dropped = []).
Proof.
  intros H W. apply (history_spec (all_received hs) _ _ _ H W). apply subseq_refl.
Qed.

(** What is put into the queue: for an ordinary data frame, the decoded values of the database message
    that was added last among those with the frame's id, if that message belongs to the tester and is
    enabled; nothing if there is no such message. *)
Theorem C33_reception mask strict given db conf f :
  reachable mask strict given db -> Forall (fun e => id_ok (e_msg e)) given -> 0 <= rx_id f < 2 ^ 31 ->
  rx_error f = false -> rx_remote f = false ->
  match last_such (answers (mask_of mask) (taken_extended (rx_id f) (rx_extended f)) (rx_id f)) (db_messages db) with
  | None => on_message_received db conf f = Ok None
  | Some e =>
      match sget conf (m_name (e_msg e)) with
      | Some c => rc_enabled c = true -> e_contained e = [] -> forall d,
                  decode (e_msg e) (rx_data f) (rc_choices c) (rc_scaling c) false true = Ok d ->
                  on_message_received db conf f = Ok (Some (mkDecoded (m_name (e_msg e)) d))
      | None => on_message_received db conf f = Ok None
      end
  end.
Proof.
  intros R I Hi E1 E2. unfold on_message_received. rewrite E1, E2. cbn [orb].
  destruct (C24_lookup _ _ _ _ R) as (_ & _ & G). rewrite (G I _ _ Hi).
  destruct (last_such _ (db_messages db)) as [e|]; cbn [found]; [|reflexivity].
  destruct (sget conf (m_name (e_msg e))) as [c|]; [|reflexivity].
  intros En Co d Hd. rewrite En. unfold entry_decode, e_container, is_container. rewrite Co. cbn [cn_contained].
  rewrite Hd. reflexivity.
Qed.

(** ** Refuted parts of the claims *)

Definition all_on : rx_conf := mkRxConf true true true.

(** The lookup runs over the messages of all buses of the database: if a message of another bus has the
    same frame id, frames of the tester's own message are ignored. *)
Definition other_bus : entry :=
  mkEntry (mkMessage 291 false "Other" (m_length ex_msg) 0 (m_signals ex_msg) true (m_codec ex_msg) (m_tree ex_msg)) true [].
Theorem C33_other_bus_refuted : exists db,
  new_database [ex_entry; other_bus] None true = Ok db /\
  (exists d, decode ex_msg ex_bytes true true false true = Ok d) /\
  m_frame_id ex_msg = 291 /\ m_extended ex_msg = false /\
  on_message_received db [(m_name ex_msg, all_on)] (mkRx 291 false false false ex_bytes) = Ok None.
Proof.
  destruct (new_database [ex_entry; other_bus] None true) as [db|] eqn:E; [|vm_compute in E; discriminate E].
  exists db. split; [reflexivity|]. split; [eexists; vm_compute; reflexivity|]. split; [vm_compute; reflexivity|].
  split; [vm_compute; reflexivity|]. vm_compute in E. apply Ok_inj in E. subst db. vm_compute. reflexivity.
Qed.

(** A frame that is too short makes the listener raise instead of ignoring the frame (python-can then
    ends its notifier thread, so that nothing is received any more). *)
Theorem C33_short_frame_refuted : exists db,
  new_database [ex_entry] None true = Ok db /\
  on_message_received db [(m_name ex_msg, all_on)] (mkRx 291 false false false [1; 2; 3]) = Err DecodeError.
Proof.
  destruct (new_database [ex_entry] None true) as [db|] eqn:E; [|vm_compute in E; discriminate E].
  exists db. split; [reflexivity|]. vm_compute in E. apply Ok_inj in E. subst db. vm_compute. reflexivity.
Qed.

(** Two received messages of one multiplexed database message; the signal C is only in the second. *)
Definition rx_values (data : list Z) : decoded :=
  mkDecoded "Ex" (match decode ex_msg data true true false true with Ok d => d | Err _ => [] end).
Definition first_rx : decoded := rx_values ex_bytes.
Definition second_rx : decoded := rx_values [2; 0; 0; 0; 4; 0; 0; 0].
Definition want_c : list (string * value) := [("C"%string, VNum (NInt 128))].

(** Expecting a value of a multiplexed signal raises KeyError at a message with another multiplexer
    value, although the wanted message is pending; the messages before it are lost although the caller
    asked to keep them. *)
Theorem C34_multiplexed_refuted :
  wanted "Ex" want_c second_rx /\
  forall timeout rs o b',
    expect_run "Ex" want_c timeout false (mkInbox [mkDecoded "Else" []; first_rx; second_rx] []) rs o b' ->
    o = Raised KeyError /\ pending b' = second_rx :: rs.
Proof.
  split.
  - split; [reflexivity|]. intros n v [[= <- <-]|[]]. eexists. split; [vm_compute; reflexivity|vm_compute; reflexivity].
  - intros timeout rs o b' R.
    assert (E : expect_list (filter_expected "Ex" want_c) false [mkDecoded "Else" []; first_rx; second_rx] [] = (Raised KeyError, [second_rx]))
      by (vm_compute; reflexivity).
    inversion R as [b rs' o' l EL NM|b rs' o' l b'' EL Q]; subst; cbn [ib_list ib_queue] in EL; rewrite E in EL.
    + injection EL as <- <-. auto.
    + discriminate EL.
Qed.

(** ** Examples *)
Definition want_b : list (string * value) := [("Mux"%string, VNum (NInt 1)); ("State"%string, VStr "On")].
Example C34_hypotheses :
  let b := mkInbox [second_rx] [mkDecoded "Else" []; first_rx] in
  Forall (answerable "Ex" want_b) (pending b) /\ (exists m, In m (pending b) /\ wanted "Ex" want_b m) /\
  ~ wanted "Ex" want_b second_rx.
Proof.
  assert (W : wanted "Ex" want_b first_rx).
  { split; [reflexivity|]. intros n v [[= <- <-]|[[= <- <-]|[]]]; (eexists; split; [vm_compute; reflexivity|vm_compute; reflexivity]). }
  split; [|split].
  - repeat constructor; intros E n v [[= <- <-]|[[= <- <-]|[]]]; try (vm_compute in E; discriminate E);
      (eexists; vm_compute; reflexivity).
  - exists first_rx. split; [right; right; now left|exact W].
  - intros [_ H]. destruct (H "Mux"%string (VNum (NInt 1)) (or_introl eq_refl)) as (x & Hx & Hv).
    vm_compute in Hx. injection Hx as <-. vm_compute in Hv. discriminate.
Qed.

(** Three messages arrive, one of them while expect waits; the other two stay pending. *)
Example C33_hypotheses :
  let hs := [HReceive second_rx; HReceive (mkDecoded "Else" []); HExpect "Ex" want_b true false [first_rx] (Got first_rx)] in
  exists b, history (mkInbox [] []) hs b /\ Forall (well_asked (all_received hs)) hs /\
            pending b = [second_rx; mkDecoded "Else" []].
Proof.
  cbv zeta. exists (mkInbox [second_rx; mkDecoded "Else" []] []). split; [|split].
  - eapply hi_cons; [apply hp_receive|]. eapply hi_cons; [apply hp_receive|]. eapply hi_cons; [|apply hi_nil].
    apply hp_expect. eapply er_queue; [vm_compute; reflexivity|]. cbn [ib_queue app].
    apply qr_next; [vm_compute; reflexivity|]. cbn [app]. apply qr_put. cbn [app].
    apply qr_next; [vm_compute; reflexivity|]. cbn [app]. apply qr_match. vm_compute. reflexivity.
  - constructor; [exact I|]. constructor; [exact I|]. constructor; [|constructor].
    exact (proj1 C34_hypotheses).
  - reflexivity.
Qed.
