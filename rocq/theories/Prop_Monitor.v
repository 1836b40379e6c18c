(** Prop_Monitor: C67, the text based monitor. *)
From Coq Require Import Ascii Floats.SpecFloat Sorting.Sorted.
From Verif Require Import Base PyNum Conversion Signal Message Container Database LayoutSpec CodecSpec DictLemmas NodeProofs Construct CodecThms Examples CSource CNames Regex Logreader DecText DecodeErr
     Prop_Container Prop_DecodeErr DecodeCmd Monitor.
Local Open Scope string_scope.
Local Open Scope Z_scope.
Local Open Scope list_scope.

(** * Specification *)
(** What a frame says about one entry of the screen: decoded signals, the names of contained messages, the bytes of
    an unknown contained message, or why it cannot be decoded *)
Inductive part := Values (m : message) (d : list (string * value)) | Contents (l : list chars) | Opaque (data : list Z) | Failure (why : chars) (data : list Z).
(** What was reported, the oldest first: time stamp, entry and part *)
Definition history := list (Z * chars * part).
Definition own (k : chars) (h : history) : list (Z * part) :=
  map (fun e => (fst (fst e), snd e)) (filter (fun e => chars_eqb (snd (fst e)) k) h).
(** Alphabetical order *)
Inductive before : chars -> chars -> Prop :=
| before_nil c r : before [] (c :: r)
| before_char c d r s : (N_of_ascii c < N_of_ascii d)%N -> before (c :: r) (d :: s)
| before_tail c r s : before r s -> before (c :: r) (c :: s).

Section Spec.
  Context (float_text : spec_float -> chars) (stamp : Z -> chars) (unit_of : signal -> option chars) (single : bool)
          (search : option (chars -> bool)) (E : list chars).

  (** A signal passes the filter if its name or the name of its message matches *)
  Definition passes (k s : chars) : bool := match search with None => true | Some f => f k || f s end.
  Definition keys_of (d : list (string * value)) : list chars := map (fun p => txt (fst p)) d.
  Fixpoint first_values (w : list (Z * part)) : option (list chars) :=
    match w with [] => None | (_, Values _ d) :: _ => Some (keys_of d) | _ :: r => first_values r end.
  (** A failure before the first signals: the entry is listed whatever the filter is *)
  Fixpoint forced (w : list (Z * part)) : bool :=
    match w with [] => false | (_, Values _ _) :: _ => false | (_, Failure _ _) :: _ => true | _ :: r => forced r end.
  (** The names of the signals that are shown.  [E]: the entries that had an error before the history began *)
  Definition shown (k : chars) (w : list (Z * part)) : list chars :=
    match first_values w with
    | None => []
    | Some ks => if member k E || forced w || negb (existsb (passes k) ks) then ks else filter (passes k) ks
    end.
  (** An entry is listed once it failed, was not known, has a signal or content that passes, or has signals and had an error *)
  Definition listed (k : chars) (w : list (Z * part)) : Prop :=
    (exists t y b, In (t, Failure y b) w) \/ (exists t b, In (t, Opaque b) w) \/
    (exists t l s, In (t, Contents l) w /\ In s l /\ passes k s = true) \/
    (exists ks, first_values w = Some ks /\ (In k E \/ exists s, In s ks /\ passes k s = true)).

  (** "name: value unit" *)
  Definition label (s : signal) (v : value) : chars :=
    txt (s_name s) ++ txt ": " ++
    match v with VNum (NInt z) => decimal z | VNum (NFlt f) => float_text f | VStr x | VNamed _ x => txt x end ++
    match v, unit_of s with VNum _, Some u => " "%char :: u | _, _ => [] end.
  Definition labels (show : list chars) (m : message) (d : list (string * value)) : list chars :=
    flat_map (fun s => match sget d (s_name s) with Some v => if member (txt (s_name s)) show then [label s v] else [] | None => [] end) (m_signals m).
  Fixpoint commas (l : list chars) : chars := match l with [] => [] | [x] => x | x :: r => x ++ txt ", " ++ commas r end.
  Fixpoint bullets (l : list chars) : list chars :=
    match l with [] => [] | [x] => [repeat " "%char 18 ++ x] | x :: r => (repeat " "%char 18 ++ x ++ txt ",") :: bullets r end.
  Definition block (t : Z) (k : chars) (items : list chars) (one : bool) : list chars :=
    let head := stamp t ++ txt "  " ++ k ++ txt "(" in
    if one then [head ++ commas items ++ txt ")"] else head :: bullets items ++ [repeat " "%char 14 ++ txt ")"].
  Definition lines_of (k : chars) (show : list chars) (e : Z * part) : list chars :=
    match snd e with
    | Values m d => block (fst e) k (labels show m d) single
    | Contents l => block (fst e) k l single
    | Opaque b => block (fst e) k [txt "undecoded: " ++ match b with [] => txt "<empty>" | _ => txt "0x" ++ bytes_hex [] b end] single
    | Failure y b => block (fst e) k [txt "undecoded, " ++ y ++ txt ": 0x" ++ bytes_hex [] b] true
    end.
  (** The lines of the last part, and blank lines up to the most lines that the entry ever had *)
  Definition entry_lines (k : chars) (w : list (Z * part)) : option (list chars) :=
    match rev w with
    | [] => None
    | e :: _ =>
        let ls := lines_of k (shown k w) e in
        let most := fold_right Nat.max O (map (fun e => List.length (lines_of k (shown k w) e)) w) in
        Some (ls ++ repeat [] (most - List.length ls))
    end.
  (** An entry is two of a message with signals, a container and an unknown message *)
  Definition kind (p : part) : option Z := match p with Values _ _ => Some 0 | Contents _ => Some 1 | Opaque _ => Some 2 | Failure _ _ => None end.
  Definition clash (w : list (Z * part)) : Prop := exists e f i j, In e w /\ In f w /\ kind (snd e) = Some i /\ kind (snd f) = Some j /\ i <> j.

  Fixpoint last_contents (w : list (Z * part)) : option (list chars) :=
    match w with [] => None | (_, Contents l) :: r => match last_contents r with Some x => Some x | None => Some l end | _ :: r => last_contents r end.
  Definition failing (w : list (Z * part)) : Prop := exists t y b r, w = r ++ [(t, Failure y b)].
End Spec.

(** * Basic lemmas *)
Lemma chars_spec (a b : chars) : reflect (a = b) (chars_eqb a b).
Proof. unfold chars_eqb; destruct (list_eq_dec ascii_dec a b); constructor; assumption. Qed.
Lemma member_in k l : member k l = true <-> In k l.
Proof.
  unfold member. rewrite existsb_exists. split; [intros (x & I & H); destruct (chars_spec k x); congruence|]. intros I; exists k; split; [exact I|]. now destruct (chars_spec k k).
Qed.
Lemma member_not k l : member k l = false <-> ~ In k l.
Proof. rewrite <- member_in. destruct (member k l); split; congruence. Qed.
Lemma ltb_before a : forall b, text_ltb a b = true <-> before a b.
Proof.
  induction a as [|x a IH]; intros [|y b]; cbn [text_ltb].
  - split; [discriminate|intros H; inversion H].
  - split; [constructor|reflexivity].
  - split; [discriminate|intros H; inversion H].
  - destruct (N.ltb_spec (N_of_ascii x) (N_of_ascii y)) as [L|L]; [split; [intros _; now apply before_char|reflexivity]|].
    destruct (N.ltb_spec (N_of_ascii y) (N_of_ascii x)) as [M|M].
    + split; [discriminate|]. intros H; inversion H; subst; lia.
    + assert (x = y) as -> by (rewrite <- (ascii_N_embedding x), <- (ascii_N_embedding y); f_equal; lia).
      rewrite IH. split; [apply before_tail|]. intros H; inversion H; subst; [lia|assumption].
Qed.
Lemma before_irrefl a : ~ before a a.
Proof. induction a as [|x a IH]; intros H; inversion H; subst; [lia|auto]. Qed.
Lemma before_trans a b c : before a b -> before b c -> before a c.
Proof.
  intros H; revert c. induction H; intros e F; inversion F; subst; try constructor; auto; lia.
Qed.
Lemma before_total a : forall b, before a b \/ a = b \/ before b a.
Proof.
  induction a as [|x a IH]; intros [|y b]; [auto|left; constructor|right; right; constructor|].
  destruct (N.lt_trichotomy (N_of_ascii x) (N_of_ascii y)) as [L|[L|L]]; [left; now constructor| |right; right; now constructor].
  assert (x = y) as -> by (rewrite <- (ascii_N_embedding x), <- (ascii_N_embedding y); now f_equal).
  destruct (IH b) as [B|[->|B]]; [left; now apply before_tail|auto|right; right; now apply before_tail].
Qed.
Lemma insort_in x y l : In y (insort x l) <-> y = x \/ In y l.
Proof. induction l as [|z l IH]; cbn; [intuition congruence|]. destruct (text_ltb x z); cbn; [intuition congruence|]. rewrite IH. intuition congruence. Qed.
Lemma insort_sorted x l : StronglySorted before l -> ~ In x l -> StronglySorted before (insort x l).
Proof.
  induction 1 as [|y l S IH F]; intros N; [constructor; constructor|]. cbn [insort]. destruct (text_ltb x y) eqn:L.
  - apply ltb_before in L. constructor; [now constructor|]. constructor; [exact L|]. eapply Forall_impl; [|exact F]. intros z. now apply before_trans.
  - assert (Y : before y x). { destruct (before_total x y) as [B|[->|B]]; [apply ltb_before in B; congruence|exfalso; apply N; now left|exact B]. }
    constructor; [apply IH; intros I; apply N; now right|]. rewrite Forall_forall in *. intros z I. apply insort_in in I as [->|I]; auto.
Qed.

(** The attributes that formatting leaves alone *)
Definition rest (st : state) := (raws st, playing st, modified st, show_filter st, filter_text st, cursor st, old_filter st, compiled st, queue st, (received st, discarded st, errors st), basetime st, first_row st, rows st).
(** The attributes of one entry agree *)
Definition agrees (k : chars) (a b : state) : Prop :=
  (In k (names a) <-> In k (names b)) /\ tget (formatted a) k = tget (formatted b) k /\ tget (msigs a) k = tget (msigs b) k /\
  tget (fsigs a) k = tget (fsigs b) k /\ (In k (with_error a) <-> In k (with_error b)).
Lemma agrees_refl k a : agrees k a a.
Proof. repeat split; auto. Qed.
Lemma agrees_trans k a b c : agrees k a b -> agrees k b c -> agrees k a c.
Proof. unfold agrees. intros (A1 & A2 & A3 & A4 & A5) (B1 & B2 & B3 & B4 & B5). rewrite A1, A2, A3, A4, A5. auto. Qed.
Definition others (k : chars) (a b : state) : Prop := forall x, x <> k -> agrees x a b.
Lemma others_trans k a b c : others k a b -> others k b c -> others k a c.
Proof. intros A B x N. eapply agrees_trans; eauto. Qed.
Lemma tget_other {V} (d : list (chars * V)) k v x : x <> k -> tget (tset d k v) x = tget d x.
Proof. intros N. rewrite (get_set _ chars_spec). destruct (chars_spec k x); congruence. Qed.
Lemma tget_same {V} (d : list (chars * V)) k v : tget (tset d k v) k = Some v.
Proof. rewrite (get_set _ chars_spec). destruct (chars_spec k k); congruence. Qed.

Lemma matching_passes st k l : matching st k l = filter (passes (compiled st) k) l.
Proof.
  unfold matching, passes. destruct (compiled st) as [f|]; [destruct (f k); cbn|]; try reflexivity; induction l as [|x l IH]; cbn; congruence.
Qed.
Lemma filter_empty {A} (f : A -> bool) l : filter f l = [] <-> existsb f l = false.
Proof. induction l as [|x l IH]; cbn; [tauto|]. destruct (f x); cbn; [split; discriminate|exact IH]. Qed.

(** [insort_filtered] *)
Definition listing_of (st : state) (k : chars) : bool :=
  member k (with_error st) || match tget (msigs st) k with None => true | Some l => existsb (passes (compiled st) k) l end.
Lemma insort_filtered_spec st k : StronglySorted before (names st) ->
  let st' := insort_filtered st k in
  others k st st' /\ rest st' = rest st /\ StronglySorted before (names st') /\ formatted st' = formatted st /\ msigs st' = msigs st /\ with_error st' = with_error st /\
  (In k (names st') <-> In k (names st) \/ listing_of st k = true) /\
  tget (fsigs st') k = if member k (names st) || member k (with_error st) then tget (fsigs st) k
                       else match tget (msigs st) k with
                            | None => tget (fsigs st) k
                            | Some l => if existsb (passes (compiled st) k) l then Some (filter (passes (compiled st) k) l) else tget (fsigs st) k
                            end.
Proof.
  intros SS. unfold insort_filtered, listing_of, matches_filter. destruct (member k (names st)) eqn:MN; cbn [orb].
  { apply member_in in MN. repeat split; auto. }
  apply member_not in MN. assert (SI := insort_sorted k _ SS MN).
  assert (O : forall a b, names a = names st -> formatted a = formatted b -> msigs a = msigs b -> with_error a = with_error b -> names b = insort k (names st) ->
    (forall x, x <> k -> tget (fsigs a) x = tget (fsigs b) x) -> others k a b).
  { intros a b A B C D G F x N. unfold agrees. rewrite A, B, C, D, G, insort_in. split; [intuition congruence|]. repeat split; auto. }
  destruct (member k (with_error st)) eqn:ME; cbn [orb].
  { split; [apply O; auto|]. cbn. rewrite insort_in. repeat split; auto. }
  destruct (tget (msigs st) k) as [l|] eqn:MS; cbn [orb].
  - rewrite matching_passes. destruct (filter (passes (compiled st) k) l) as [|x r] eqn:F.
    + apply filter_empty in F as F'. rewrite F'. repeat split; auto; intros [|]; [assumption|discriminate].
    + destruct (existsb (passes (compiled st) k) l) eqn:X; [|apply filter_empty in X; congruence].
      split; [apply O; auto; intros y N; cbn; now rewrite tget_other|]. cbn. rewrite insort_in, tget_same. repeat split; auto.
  - split; [apply O; auto|]. cbn. rewrite insort_in. repeat split; auto.
Qed.
(** [_update_formatted_message] *)
Definition padded (old : option (list chars)) (ls : list chars) : list chars :=
  match old with None => ls | Some o => ls ++ repeat [] (List.length o - List.length ls) end.
Lemma update_formatted_spec st k ls err : StronglySorted before (names st) ->
  let st' := update_formatted st k ls err in
  others k st st' /\ rest st' = rest st /\ StronglySorted before (names st') /\ tget (formatted st') k = Some (padded (tget (formatted st) k) ls) /\ msigs st' = msigs st /\
  (In k (with_error st') <-> err = true) /\
  (In k (names st') <-> In k (names st) \/ err = true \/ match tget (msigs st) k with None => True | Some l => existsb (passes (compiled st) k) l = true end) /\
  tget (fsigs st') k = if member k (names st) || err then tget (fsigs st) k
                       else match tget (msigs st) k with
                            | None => tget (fsigs st) k
                            | Some l => if existsb (passes (compiled st) k) l then Some (filter (passes (compiled st) k) l) else tget (fsigs st) k
                            end.
Proof.
  intros SS. unfold update_formatted.
  set (ls' := if Nat.ltb _ _ then _ else _). assert (P : ls' = padded (tget (formatted st) k) ls).
  { unfold ls', padded. destruct (tget (formatted st) k) as [o|]; cbn [List.length]; [|reflexivity].
    destruct (Nat.ltb_spec (List.length ls) (List.length o)); [reflexivity|]. replace (List.length o - List.length ls)%nat with O by lia. cbn. now rewrite app_nil_r. }
  rewrite P. clear ls' P. set (we := if err then _ else _).
  assert (W : In k we <-> err = true).
  { unfold we. cbn [with_error set_formatted]. destruct err; [destruct (member k (with_error st)) eqn:M; [apply member_in in M; tauto|cbn; tauto]|].
    rewrite filter_In. destruct (chars_spec k k); [|congruence]. cbn. split; [tauto|discriminate]. }
  assert (WO : forall x, x <> k -> In x (with_error st) <-> In x we).
  { intros x N. unfold we. cbn [with_error set_formatted]. destruct err; [destruct (member k (with_error st)); [tauto|cbn; intuition congruence]|].
    rewrite filter_In. destruct (chars_spec x k); [congruence|]. cbn. tauto. }
  set (st1 := set_with_error _ we). assert (O1 : others k st st1).
  { intros x N. unfold agrees, st1. cbn. rewrite tget_other by exact N. repeat split; auto; now apply WO. }
  destruct (insort_filtered_spec st1 k SS) as (A1 & A2 & A3 & A4 & A5 & A6 & A7 & A8).
  assert (ES : (if member k (names st1) then st1 else insort_filtered st1 k) = insort_filtered st1 k).
  { unfold insort_filtered. now destruct (member k (names st1)). }
  cbn zeta in *. rewrite ES. split; [eapply others_trans; eassumption|]. split; [exact A2|]. split; [exact A3|]. split; [rewrite A4; unfold st1; cbn; apply tget_same|].
  split; [exact A5|]. split; [rewrite A6; exact W|].
  assert (MW : member k (with_error st1) = err).
  { unfold st1. cbn [with_error set_with_error]. destruct err; [now apply member_in, W|]. apply member_not. intros I. apply W in I. discriminate. }
  split.
  - rewrite A7. unfold listing_of. rewrite MW. unfold st1. cbn. destruct (tget (msigs st) k); rewrite orb_true_iff; tauto.
  - rewrite A8, MW. reflexivity.
Qed.

(** * Histories *)
Lemma own_snoc k h t x p : own k (h ++ [(t, x, p)]) = own k h ++ if chars_eqb x k then [(t, p)] else [].
Proof. unfold own. rewrite filter_app, map_app. cbn. now destruct (chars_eqb x k). Qed.
Lemma own_same k h t p : own k (h ++ [(t, k, p)]) = own k h ++ [(t, p)].
Proof. rewrite own_snoc. destruct (chars_spec k k); congruence. Qed.
Lemma own_other k x h t p : x <> k -> own x (h ++ [(t, k, p)]) = own x h.
Proof. intros N. rewrite own_snoc. destruct (chars_spec k x); [congruence|apply app_nil_r]. Qed.
Lemma first_values_app w x : first_values (w ++ x) = match first_values w with Some ks => Some ks | None => first_values x end.
Proof. induction w as [|[t [m d|l|b|y b]] w IH]; cbn; auto. Qed.
Lemma forced_app w x : forced (w ++ x) = match first_values w with Some _ => forced w | None => forced w || forced x end.
Proof. induction w as [|[t [m d|l|b|y b]] w IH]; cbn; auto; destruct (first_values w); reflexivity. Qed.
Lemma last_contents_app w x : last_contents (w ++ x) = match last_contents x with Some l => Some l | None => last_contents w end.
Proof. induction w as [|[t [m d|l|b|y b]] w IH]; cbn; [destruct (last_contents x); reflexivity|auto| |auto|auto]. rewrite IH. now destruct (last_contents x). Qed.
Lemma first_values_none w : first_values w = None -> forall t m d, ~ In (t, Values m d) w.
Proof. induction w as [|[t0 [m0 d0|l|b|y b]] w IH]; cbn; intros H t m d G; try contradiction; destruct G as [G|G]; try discriminate; firstorder. Qed.
Lemma last_contents_none w : last_contents w = None -> forall t l, ~ In (t, Contents l) w.
Proof.
  induction w as [|[t0 [m0 d0|l0|b|y b]] w IH]; cbn; intros H t l G; try contradiction; destruct G as [G|G]; try discriminate; try (now apply (IH H t l)).
  all: destruct (last_contents w); discriminate.
Qed.
Lemma first_values_in w ks : first_values w = Some ks -> exists t m d, In (t, Values m d) w /\ ks = keys_of d.
Proof.
  induction w as [|[t [m d|l|b|y b]] w IH]; cbn; intros H; try discriminate; [injection H as <-; exists t, m, d; auto| | |];
    destruct (IH H) as (t' & m' & d' & I & ->); exists t', m', d'; auto.
Qed.
Lemma last_contents_in w l : last_contents w = Some l -> exists t, In (t, Contents l) w.
Proof.
  induction w as [|[t [m d|l0|b|y b]] w IH]; cbn; intros H; try discriminate; try (destruct (IH H) as (t' & I); eauto; fail).
  destruct (last_contents w) as [l1|]; [destruct (IH H) as (t' & I); eauto|]. injection H as <-. eauto.
Qed.

Section Proofs.
  Context (float_text : spec_float -> chars) (stamp : Z -> chars) (unit_of : signal -> option chars) (single : bool).
  Notation lines_of := (lines_of float_text stamp unit_of single).
  Notation entry_lines := (entry_lines float_text stamp unit_of single).

  Lemma bullets_spec (l : list chars) : forall n N, N = (n + List.length l)%nat ->
    map (fun p => txt "                  " ++ snd p ++ (if Nat.ltb (fst p + 1) N then txt "," else [])) (combine (seq n (List.length l)) l) = bullets l.
  Proof.
    induction l as [|x l IH]; intros n N H; [reflexivity|]. cbn [List.length seq combine map fst snd]. rewrite (IH (S n) N) by (cbn in H; lia).
    destruct l as [|y l]; cbn [List.length] in H; cbn [bullets].
    - destruct (Nat.ltb_spec (n + 1) N); [lia|]. now rewrite app_nil_r.
    - destruct (Nat.ltb_spec (n + 1) N); [|lia]. reflexivity.
  Qed.
  Lemma commas_join l : join (txt ", ") l = commas l.
  Proof. induction l as [|x [|y l] IH]; [reflexivity|reflexivity|]. cbn [join commas] in *. now rewrite IH. Qed.
  Lemma format_lines_spec t k items one : format_lines stamp single t k items one = block stamp t k items (single || one).
  Proof.
    unfold format_lines, block. destruct (single || one); [now rewrite commas_join, <- !app_assoc|]. pose proof (bullets_spec items 0 _ eq_refl) as B. cbn [Nat.add] in B. apply (f_equal2 (@cons chars)); [reflexivity|]. apply (f_equal2 (@app chars)); [exact B|reflexivity].
  Qed.
  Lemma sget_filter (f : string -> bool) (d : list (string * value)) k : sget (filter (fun p => f (fst p)) d) k = if f k then sget d k else None.
  Proof.
    induction d as [|[k0 v0] d IH]; cbn; [now destruct (f k)|]. destruct (f k0) eqn:F; cbn; destruct (String.eqb_spec k0 k) as [->|N]; rewrite ?F; auto.
    - rewrite IH, F. reflexivity.
  Qed.
  Lemma format_signals_spec show m d : format_signals float_text unit_of m (filter (fun p => member (txt (fst p)) show) d) = labels float_text unit_of show m d.
  Proof.
    unfold format_signals, labels. apply flat_map_ext. intros s. rewrite (sget_filter (fun x => member (txt x) show)). destruct (member (txt (s_name s)) show); [|now destruct (sget d (s_name s))].
    destruct (sget d (s_name s)) as [v|]; [|reflexivity]. f_equal. unfold format_signal, label, value_text.
    destruct (unit_of s), v as [[z|f]|x|z x]; rewrite <- ?app_assoc, ?app_nil_r; reflexivity.
  Qed.

  Section Filter.
  Context (search : option (chars -> bool)) (E : list chars).
  Notation shown := (shown search E).
  Notation listed := (listed search E).

  Lemma shown_stable k w x ks : first_values w = Some ks -> shown k (w ++ x) = shown k w.
  Proof. intros H. unfold Prop_Monitor.shown. now rewrite first_values_app, forced_app, H. Qed.
  Lemma lines_stable k w x e : In e w -> lines_of k (shown k (w ++ x)) e = lines_of k (shown k w) e.
  Proof.
    intros I. destruct (first_values w) as [ks|] eqn:F; [now rewrite (shown_stable k w x ks F)|]. destruct e as [t [m d|l|b|y b]]; try reflexivity. exfalso. now apply (first_values_none w F t m d).
  Qed.
  Lemma fold_max l x : In x l -> (x <= fold_right Nat.max 0 l)%nat.
  Proof. induction l as [|y l IH]; cbn; intros I; [contradiction|]. destruct I as [->|I]; [lia|]. specialize (IH I). lia. Qed.
  Lemma fold_max_app a b : fold_right Nat.max O (a ++ b) = Nat.max (fold_right Nat.max O a) (fold_right Nat.max O b).
  Proof. induction a as [|x a IH]; cbn; [reflexivity|]. rewrite IH. lia. Qed.
  Lemma entry_lines_snoc k w e : entry_lines search E k (w ++ [e]) = Some (padded (entry_lines search E k w) (lines_of k (shown k (w ++ [e])) e)).
  Proof.
    unfold Prop_Monitor.entry_lines. rewrite rev_app_distr. cbn [rev app]. set (sh := shown k (w ++ [e])). set (ls := lines_of k sh e). f_equal.
    rewrite map_app, fold_max_app. cbn [map fold_right]. change (Prop_Monitor.lines_of float_text stamp unit_of single k sh e) with ls. rewrite Nat.max_0_r.
    assert (M : map (fun e => List.length (lines_of k sh e)) w = map (fun e => List.length (lines_of k (shown k w) e)) w).
    { apply map_ext_in. intros x I. unfold sh. now rewrite lines_stable. }
    rewrite M. destruct (rev w) as [|x r] eqn:R.
    - assert (w = []) as -> by (rewrite <- (rev_involutive w), R; reflexivity). cbn. rewrite Nat.sub_diag. apply app_nil_r.
    - cbn [padded]. set (most := fold_right Nat.max O _). assert (I : In x w) by (apply in_rev; rewrite R; now left).
      assert (B : (List.length (lines_of k (shown k w) x) <= most)%nat) by (apply fold_max, (in_map (fun e => List.length (lines_of k (shown k w) e))), I).
      rewrite app_length, repeat_length. f_equal. f_equal. fold ls. lia.
  Qed.

  (** The state shows the history *)
  Record shows_history (h : history) (st : state) : Prop := mkShows {
    sh_search : compiled st = search;
    sh_sorted : StronglySorted before (names st);
    sh_names : forall k, In k (names st) <-> listed k (own k h);
    sh_lines : forall k, tget (formatted st) k = entry_lines search E k (own k h);
    sh_msigs : forall k, tget (msigs st) k = match last_contents (own k h) with Some l => Some l | None => first_values (own k h) end;
    sh_fsigs : forall k ks, first_values (own k h) = Some ks -> tget (fsigs st) k = Some (shown k (own k h));
    sh_error : forall k, In k (with_error st) <-> (own k h = [] /\ In k E) \/ failing (own k h) }.

  (** One part *)
  Definition write (st : state) (t : Z) (k : chars) (p : part) : result state :=
    match p with
    | Values m d => let* (d', st') := filter_signals st k d in Ok (update_formatted st' k (format_lines stamp single t k (format_signals float_text unit_of m d') false) false)
    | Contents l => Ok (update_formatted (set_msigs st (tset (msigs st) k l)) k (format_lines stamp single t k l false) false)
    | Opaque b => Ok (update_formatted st k (format_lines stamp single t k [txt "undecoded: " ++ match b with [] => txt "<empty>" | _ => txt "0x" ++ bytes_hex [] b end] false) false)
    | Failure y b => Ok (message_error stamp single st t k b y)
    end.

  Lemma failing_snoc w e : failing (w ++ [e]) <-> exists y b, snd e = Failure y b.
  Proof.
    split.
    - intros (t & y & b & r & H). apply app_inj_tail in H as [_ ->]. exists y, b. reflexivity.
    - intros (y & b & H). destruct e as [t p]. cbn in H. subst p. exists t, y, b, w. reflexivity.
  Qed.
  Lemma listed_snoc k w e : listed k (w ++ [e]) <-> listed k w \/
    match snd e with
    | Failure _ _ | Opaque _ => True
    | Contents l => exists s, In s l /\ passes search k s = true
    | Values _ d => first_values w = None /\ (In k E \/ exists s, In s (keys_of d) /\ passes search k s = true)
    end.
  Proof.
    unfold Prop_Monitor.listed. rewrite first_values_app. setoid_rewrite in_app_iff. cbn [In]. destruct e as [t [m d|l|b|y b]]; cbn [snd first_values].
    - destruct (first_values w) as [ks|]; split.
      + intros [(t' & y & b & [H|[H|[]]])|[(t' & b & [H|[H|[]]])|[(t' & l & s & [H|[H|[]]] & X)|H]]]; try discriminate; left; eauto 10.
      + intros [[H|[H|[H|H]]]|[H _]]; [| | | |discriminate]; [left|right; left|right; right; left|right; right; right; exact H]; [destruct H as (t' & y & b & H)|destruct H as (t' & b & H)|destruct H as (t' & l & s & H & X)]; eauto 10.
      + intros [(t' & y & b & [H|[H|[]]])|[(t' & b & [H|[H|[]]])|[(t' & l & s & [H|[H|[]]] & X)|H]]]; try discriminate; [left; eauto 10|left; eauto 10|left; eauto 10|].
        destruct H as (ks & [= <-] & H). right. auto.
      + intros [[H|[H|[H|H]]]|[_ H]]; [left|right; left|right; right; left|destruct H as (? & [=] & _)|right; right; right; eauto]; [destruct H as (t' & y & b & H)|destruct H as (t' & b & H)|destruct H as (t' & l & s & H & X)]; eauto 10.
    - split.
      + intros [(t' & y & b & [H|[H|[]]])|[(t' & b & [H|[H|[]]])|[(t' & l' & s & [H|[H|[]]] & X)|H]]]; try discriminate; [left; eauto 10|left; eauto 10|left; eauto 10|injection H as <- <-; right; eauto|].
        left. right. right. right. destruct (first_values w); [exact H|]. destruct H as (? & [=] & _).
      + intros [[H|[H|[H|H]]]|(s & I & H)]; [left|right; left|right; right; left|right; right; right|right; right; left; eauto 10];
          [destruct H as (t' & y & b & H); eauto 10|destruct H as (t' & b & H); eauto 10|destruct H as (t' & l' & s & H & X); eauto 10|].
        destruct H as (ks & -> & H). eauto.
    - split; [tauto|]. intros _. right. left. exists t, b. auto.
    - split; [tauto|]. intros _. left. exists t, y, b. auto.
  Qed.
  Lemma rest_compiled a b : rest a = rest b -> compiled a = compiled b.
  Proof. unfold rest. congruence. Qed.
  Lemma assemble h st st' t k p : let w := own k h ++ [(t, p)] in
    shows_history h st -> others k st st' -> rest st' = rest st -> StronglySorted before (names st') ->
    (In k (names st') <-> listed k w) -> tget (formatted st') k = entry_lines search E k w ->
    tget (msigs st') k = match last_contents w with Some l => Some l | None => first_values w end ->
    (forall ks, first_values w = Some ks -> tget (fsigs st') k = Some (shown k w)) ->
    (In k (with_error st') <-> exists y b, p = Failure y b) ->
    shows_history (h ++ [(t, k, p)]) st'.
  Proof.
    intros w H O RE S A B C D F. destruct H as [H1 H2 H3 H4 H5 H6 H7].
    assert (CS : forall x, x = k \/ x <> k) by (intros x; destruct (list_eq_dec ascii_dec x k); auto).
    constructor; [rewrite (rest_compiled _ _ RE); exact H1|exact S| | | | |]; intros x; destruct (CS x) as [->|N]; rewrite ?own_same, ?(own_other k x) by exact N; try (fold w); auto.
    - rewrite <- H3. destruct (O x N) as (O1 & _). tauto.
    - rewrite <- H4. destruct (O x N) as (_ & O1 & _). auto.
    - rewrite <- H5. destruct (O x N) as (_ & _ & O1 & _). auto.
    - intros ks K. rewrite <- (H6 x ks K). destruct (O x N) as (_ & _ & _ & O1 & _). auto.
    - rewrite F. split; [intros P; right; unfold w; apply failing_snoc; exact P|]. intros [[P _]|P]; [now destruct (own k h)|]. unfold w in P. now apply failing_snoc in P.
    - rewrite <- H7. destruct (O x N) as (_ & _ & _ & _ & O1). tauto.
  Qed.
  Lemma existsb_passes k l : existsb (passes search k) l = true <-> exists s, In s l /\ passes search k s = true.
  Proof. apply existsb_exists. Qed.
  Lemma clash_kind w t p e : ~ clash (w ++ [(t, p)]) -> In e w -> forall i j, kind (snd e) = Some i -> kind p = Some j -> i = j.
  Proof.
    intros H I i j A B. destruct (Z.eq_dec i j) as [|N]; [assumption|]. exfalso. apply H. exists e, (t, p), i, j. repeat split; auto; apply in_or_app; [auto|right; now left].
  Qed.

  Lemma write_step h st t k p : shows_history h st -> ~ clash (own k h ++ [(t, p)]) ->
    exists st', write st t k p = Ok st' /\ shows_history (h ++ [(t, k, p)]) st' /\ rest st' = rest st.
  Proof.
    intros H NC. destruct H as [H1 H2 H3 H4 H5 H6 H7] eqn:HE. clear HE. set (w := own k h) in *.
    assert (FV : forall x, (forall m d, p <> Values m d) -> first_values (w ++ [(x, p)]) = first_values w).
    { intros x N. rewrite first_values_app. destruct (first_values w); [reflexivity|]. destruct p; cbn; congruence. }
    assert (SHK : forall ks, first_values w = Some ks -> shown k (w ++ [(t, p)]) = shown k w) by (intros ks F; exact (shown_stable k w [(t, p)] ks F)).
    assert (NOV : (exists j, kind p = Some j /\ j <> 0) -> first_values w = None).
    { intros (j & J & N). destruct (first_values w) as [ks|] eqn:F; [|reflexivity]. exfalso. apply first_values_in in F as (t' & m & d & I & _). apply N. symmetry. exact (clash_kind w t p _ NC I 0 j eq_refl J). }
    assert (NOC : (exists j, kind p = Some j /\ j <> 1) -> last_contents w = None).
    { intros (j & J & N). destruct (last_contents w) as [l|] eqn:F; [|reflexivity]. exfalso. apply last_contents_in in F as (t' & I). apply N. symmetry. exact (clash_kind w t p _ NC I 1 j eq_refl J). }
    pose proof (H3 k) as HN. pose proof (H4 k) as HL. pose proof (H5 k) as HM. pose proof (H7 k) as HF. pose proof (H6 k) as HS. fold w in HN, HL, HM, HF, HS.
    destruct p as [m d|l|b|y b]; cbn [write].
    - (* signals *)
      assert (NCT : last_contents w = None) by (apply NOC; exists 0; split; [reflexivity|discriminate]). rewrite NCT in HM.
      assert (exists st1, filter_signals st k d = Ok (filter (fun p => member (txt (fst p)) (shown k (w ++ [(t, Values m d)]))) d, st1) /\ others k st st1 /\ rest st1 = rest st /\
        StronglySorted before (names st1) /\ formatted st1 = formatted st /\ tget (msigs st1) k = first_values (w ++ [(t, Values m d)]) /\
        tget (fsigs st1) k = Some (shown k (w ++ [(t, Values m d)])) /\ (In k (names st1) <-> listed k (w ++ [(t, Values m d)]))) as (st1 & FS & O1 & R1 & S1 & F1 & M1 & G1 & N1).
      { unfold filter_signals, dmem. rewrite HM. destruct (first_values w) as [ks|] eqn:FVW.
        - exists st. rewrite (HS ks eq_refl), (SHK ks eq_refl). split; [reflexivity|]. split; [intros x _; apply agrees_refl|].
          split; [reflexivity|]. split; [exact H2|]. split; [reflexivity|]. split; [rewrite HM, first_values_app, FVW; reflexivity|]. split; [reflexivity|].
          rewrite listed_snoc, HN. cbn [snd]. rewrite FVW. intuition discriminate.
        - set (st0 := set_fsigs _ _). destruct (insort_filtered_spec st0 k H2) as (A1 & A2 & A3 & A4 & A5 & A6 & A7 & A8). cbn zeta in *.
          set (st1 := insort_filtered st0 k) in *. fold (keys_of d) in *.
          assert (MK : tget (msigs st0) k = Some (keys_of d)) by (unfold st0; cbn; apply tget_same).
          assert (FK : tget (fsigs st0) k = Some (keys_of d)) by (unfold st0; cbn; apply tget_same).
          unfold listing_of in A7. change (compiled st0) with (compiled st) in *. rewrite H1 in *. rewrite MK, FK in *. change (names st0) with (names st) in *. change (with_error st0) with (with_error st) in *.
          assert (SH : shown k (w ++ [(t, Values m d)]) = if member k E || forced w || negb (existsb (passes search k) (keys_of d)) then keys_of d else filter (passes search k) (keys_of d)).
          { unfold Prop_Monitor.shown. rewrite first_values_app, forced_app, FVW. cbn [first_values forced]. now rewrite orb_false_r. }
          assert (WF : w = [] \/ exists t' y b w0, w = (t', Failure y b) :: w0).
          { destruct w as [|[t' p'] w0] eqn:EW; [now left|]. right. destruct p' as [m' d'|l'|b'|y' b']; [cbn in FVW; discriminate| | |exists t', y', b', w0; reflexivity];
              pose proof (clash_kind _ t _ _ NC (or_introl eq_refl) _ 0 eq_refl eq_refl); discriminate. }
          assert (FO : forall A, (In k (names st) \/ In k (with_error st) \/ A) <-> (listed k w \/ (In k E \/ A))).
          { intros A. rewrite HN, HF. destruct WF as [W|(t' & y & b & w0 & W)]; rewrite W.
            - assert (NF : ~ failing []) by (intros (? & ? & ? & r & X); now destruct r). tauto.
            - assert (L : listed k ((t', Failure y b) :: w0)) by (left; exists t', y, b; now left). tauto. }
          assert (G : tget (fsigs st1) k = Some (shown k (w ++ [(t, Values m d)]))).
          { rewrite A8, SH. destruct (member k (names st) || member k (with_error st)) eqn:ME.
            - apply orb_true_iff in ME. rewrite !member_in in ME. assert (X : listed k w \/ In k E \/ False) by (apply FO; tauto).
              destruct X as [X|[X|[]]]; [|apply member_in in X; now rewrite X]. destruct WF as [W|(t' & y & b & w0 & W)]; rewrite W in *; [|cbn [forced]; now rewrite orb_true_r].
              exfalso. destruct X as [(? & ? & ? & [])|[(? & ? & [])|[(? & ? & ? & [] & _)|(? & [=] & _)]]].
            - apply orb_false_iff in ME as [MN ME]. apply member_not in MN, ME. assert (X : ~ (listed k w \/ In k E \/ False)) by (rewrite <- FO; tauto).
              assert (M0 : member k E = false) by (apply member_not; tauto). rewrite M0. destruct WF as [W|(t' & y & b & w0 & W)]; [|exfalso; apply X; left; rewrite W; left; exists t', y, b; now left].
              rewrite W. cbn [forced orb]. destruct (existsb (passes search k) (keys_of d)); reflexivity. }
          exists st1. rewrite G. split; [reflexivity|]. split.
          { eapply others_trans; [|exact A1]. intros x N. unfold agrees, st0. cbn. rewrite !tget_other by exact N. repeat split; auto. }
          split; [exact A2|]. split; [exact A3|]. split; [exact A4|]. split; [rewrite A5, MK, first_values_app, FVW; reflexivity|]. split; [reflexivity|].
          rewrite A7, listed_snoc, orb_true_iff, member_in, existsb_passes, FO. cbn [snd]. rewrite FVW. intuition. }
      rewrite FS. cbn [bind]. set (ls := format_lines _ _ _ _ _ _). destruct (update_formatted_spec st1 k ls false S1) as (B1 & B2 & B3 & B4 & B5 & B6 & B7 & B8). cbn zeta in *.
      exists (update_formatted st1 k ls false). split; [reflexivity|]. split; [|congruence].
      assert (CP : compiled st1 = search) by (rewrite (rest_compiled _ _ R1); exact H1). rewrite CP, M1 in *.
      assert (NM : In k (names (update_formatted st1 k ls false)) <-> listed k (w ++ [(t, Values m d)])).
      { rewrite B7. split; [|intros X; left; now apply N1]. intros [X|[X|X]]; [now apply N1|discriminate|].
        rewrite first_values_app in X. destruct (first_values w) as [ks|] eqn:FVW; cbn [first_values] in X; apply existsb_passes in X; apply listed_snoc; [left|right; cbn [snd]; split; [exact FVW|right; exact X]]. right. right. right. exists ks. auto. }
      apply (assemble h st); auto; fold w.
      + eapply others_trans; eassumption.
      + congruence.
      + rewrite B4, F1, HL, entry_lines_snoc. unfold ls. rewrite format_lines_spec, format_signals_spec, orb_false_r. reflexivity.
      + rewrite B5, M1, last_contents_app. cbn [last_contents]. now rewrite NCT.
      + intros ks K. rewrite B8, orb_false_r, G1. destruct (member k (names st1)) eqn:MN; [reflexivity|]. rewrite K.
        destruct (existsb (passes search k) ks) eqn:X; [|reflexivity]. exfalso. apply member_not in MN. apply MN, N1. right. right. right. exists ks. split; [exact K|]. right. now apply existsb_passes.
      + rewrite B6. split; [discriminate|]. intros (? & ? & ?); discriminate.
    - (* contents *)
      set (st1 := set_msigs st _). set (ls := format_lines _ _ _ _ _ _). destruct (update_formatted_spec st1 k ls false H2) as (B1 & B2 & B3 & B4 & B5 & B6 & B7 & B8). cbn zeta in *.
      assert (MK : tget (msigs st1) k = Some l) by (unfold st1; cbn; apply tget_same). change (compiled st1) with (compiled st) in *. rewrite H1, MK in *. change (names st1) with (names st) in *.
      assert (NV : first_values w = None) by (apply NOV; exists 1; split; [reflexivity|discriminate]).
      exists (update_formatted st1 k ls false). split; [reflexivity|]. split; [|exact B2]. apply (assemble h st); auto; fold w.
      + eapply others_trans; [|exact B1]. intros x N. unfold agrees, st1. cbn. rewrite tget_other by exact N. repeat split; auto.
      + rewrite B7, listed_snoc, HN. cbn [snd]. rewrite existsb_passes. intuition discriminate.
      + rewrite B4. change (formatted st1) with (formatted st). rewrite HL, entry_lines_snoc. unfold ls. rewrite format_lines_spec, orb_false_r. reflexivity.
      + rewrite B5, MK, last_contents_app. reflexivity.
      + intros ks K. rewrite FV in K by discriminate. congruence.
      + rewrite B6. split; [discriminate|]. intros (? & ? & ?); discriminate.
    - (* unknown contained message *)
      set (ls := format_lines _ _ _ _ _ _). destruct (update_formatted_spec st k ls false H2) as (B1 & B2 & B3 & B4 & B5 & B6 & B7 & B8). cbn zeta in *. rewrite H1 in *.
      assert (NV : first_values w = None) by (apply NOV; exists 2; split; [reflexivity|discriminate]). assert (NT : last_contents w = None) by (apply NOC; exists 2; split; [reflexivity|discriminate]).
      rewrite NV, NT in HM. rewrite HM in *.
      exists (update_formatted st k ls false). split; [reflexivity|]. split; [|exact B2]. apply (assemble h st); auto; fold w.
      + rewrite B7, listed_snoc, HN. cbn [snd]. tauto.
      + rewrite B4, HL, entry_lines_snoc. unfold ls. rewrite format_lines_spec, orb_false_r. reflexivity.
      + rewrite B5, HM, last_contents_app. cbn [last_contents]. rewrite FV, NV, NT by discriminate. reflexivity.
      + intros ks K. rewrite FV in K by discriminate. congruence.
      + rewrite B6. split; [discriminate|]. intros (? & ? & ?); discriminate.
    - (* failure *)
      unfold message_error. set (ls := format_lines _ _ _ _ _ _). destruct (update_formatted_spec st k ls true H2) as (B1 & B2 & B3 & B4 & B5 & B6 & B7 & B8). cbn zeta in *. rewrite H1 in *.
      exists (update_formatted st k ls true). split; [reflexivity|]. split; [|exact B2]. apply (assemble h st); auto; fold w.
      + rewrite B7, listed_snoc, HN. cbn [snd]. tauto.
      + rewrite B4, HL, entry_lines_snoc. unfold ls. rewrite format_lines_spec, orb_true_r. reflexivity.
      + rewrite B5, HM, last_contents_app. cbn [last_contents]. rewrite FV by discriminate. reflexivity.
      + intros ks K. rewrite FV in K by discriminate. rewrite B8, orb_true_r, (SHK ks K). now apply HS with ks.
      + rewrite B6. split; [intros _; exists y, b; reflexivity|auto].
  Qed.
  (** Several parts *)
  Fixpoint writes (st : state) (t : Z) (l : list (chars * part)) : result state :=
    match l with [] => Ok st | (k, p) :: r => let* st' := write st t k p in writes st' t r end.
  Definition at_time (t : Z) (l : list (chars * part)) : history := map (fun kp => (t, fst kp, snd kp)) l.
  Lemma own_app k a b : own k (a ++ b) = own k a ++ own k b.
  Proof. unfold own. now rewrite filter_app, map_app. Qed.
  Lemma clash_part w x : ~ clash (w ++ x) -> ~ clash w.
  Proof. intros H (e & f & i & j & I & J & X). apply H. exists e, f, i, j. split; [apply in_or_app; auto|]. split; [apply in_or_app; auto|exact X]. Qed.
  Lemma writes_step t l : forall h st, shows_history h st -> (forall k, ~ clash (own k (h ++ at_time t l))) ->
    exists st', writes st t l = Ok st' /\ shows_history (h ++ at_time t l) st' /\ rest st' = rest st.
  Proof.
    induction l as [|[k p] l IH]; intros h st H NC; cbn [writes at_time map fst snd].
    - exists st. rewrite app_nil_r. auto.
    - destruct (write_step h st t k p H) as (st1 & W & H1 & R1).
      { specialize (NC k). cbn [at_time map fst snd] in NC. change ((t, k, p) :: ?x) with ([(t, k, p)] ++ x) in NC. rewrite app_assoc, own_app, own_same in NC. eapply clash_part; exact NC. }
      rewrite W. cbn [bind]. destruct (IH (h ++ [(t, k, p)]) st1 H1) as (st2 & W2 & H2 & R2).
      { intros x. rewrite <- app_assoc. exact (NC x). }
      exists st2. split; [exact W2|]. rewrite <- app_assoc in H2. split; [exact H2|congruence].
  Qed.
  (** The attributes outside of [shows_history] do not matter *)
  Lemma shows_rest h a b : shows_history h a -> compiled b = compiled a -> names b = names a -> formatted b = formatted a -> msigs b = msigs a -> fsigs b = fsigs a -> with_error b = with_error a -> shows_history h b.
  Proof. intros [H1 H2 H3 H4 H5 H6 H7] A B C D F G. constructor; rewrite ?A, ?B, ?C, ?D, ?F, ?G; auto. Qed.
  End Filter.
End Proofs.

(** * What a frame reports *)
Section Report.
  Context (float_text : spec_float -> chars) (raw_initial : signal -> option num) (explain : entry -> list Z -> chars) (db : database).
  (** The entry of a message: its name, and the values of all multiplexers *)
  Definition text_of (v : value) : chars := match v with VNum (NInt z) => decimal z | VNum (NFlt f) => float_text f | VStr x | VNamed _ x => txt x end.
  Definition entry_name (m : message) (d : list (string * value)) : chars :=
    txt (m_name m) ++
    if is_multiplexed m then
      List.concat (map (fun s => txt " :: " ++ txt (s_name s) ++ txt "=" ++
        match sget d (s_name s), raw_initial s with Some v, _ => text_of v | None, Some n => text_of (VNum n) | None, None => txt "0" end) (filter s_is_mux (m_signals m)))
    else [].
  Definition header_name (h : Z + contained) : chars := match h with inl id => txt "0x" ++ hex_text 1 id | inr x => txt (m_name (ct_msg x)) end.
  (** The entries of the contained messages; None if one of them cannot be decoded *)
  Fixpoint inside (box : chars) (l : list ((Z + contained) * payload)) : option (list (chars * part)) :=
    match l with
    | [] => Some []
    | (inl id, PBytes b) :: r => match inside box r with Some x => Some ((box ++ txt " :: " ++ header_name (inl id), Opaque b) :: x) | None => None end
    | (inr c, PDict d) :: r => match inside box r with Some x => Some ((box ++ txt " :: " ++ entry_name (ct_msg c) d, Values (ct_msg c) d) :: x) | None => None end
    | _ => None
    end.
  Inductive reports (f : raw_message) : verdict -> list (chars * part) -> Prop :=
  | rp_unknown : get_message_by_frame_id db (rm_id f) (rm_ext f) = Err KeyError -> reports f Unknown []
  | rp_values e d : get_message_by_frame_id db (rm_id f) (rm_ext f) = Ok e -> e_contained e = [] -> m_length (e_msg e) <= zlen (rm_data f) ->
      decode (e_msg e) (rm_data f) true true true true = Ok d -> reports f Shown [(entry_name (e_msg e) d, Values (e_msg e) d)]
  | rp_short e : get_message_by_frame_id db (rm_id f) (rm_ext f) = Ok e -> e_contained e = [] -> zlen (rm_data f) < m_length (e_msg e) ->
      reports f Undecoded [(txt (m_name (e_msg e)), Failure (decimal (m_length (e_msg e) - zlen (rm_data f)) ++ txt " bytes too short") (rm_data f))]
  | rp_bad e : get_message_by_frame_id db (rm_id f) (rm_ext f) = Ok e -> e_contained e = [] -> m_length (e_msg e) <= zlen (rm_data f) ->
      decode (e_msg e) (rm_data f) true true true true = Err DecodeError -> reports f Undecoded [(txt (m_name (e_msg e)), Failure (explain e (rm_data f)) (rm_data f))]
  | rp_container e l ps : get_message_by_frame_id db (rm_id f) (rm_ext f) = Ok e -> e_contained e <> [] ->
      decode_container (e_container e) (rm_data f) true true false true = Ok l -> inside (txt (m_name (e_msg e))) l = Some ps ->
      reports f Shown ((txt (m_name (e_msg e)), Contents (map (fun p => header_name (fst p)) l)) :: ps)
  | rp_bad_container e : get_message_by_frame_id db (rm_id f) (rm_ext f) = Ok e -> e_contained e <> [] ->
      decode_container (e_container e) (rm_data f) true true false true = Err DecodeError ->
      reports f Undecoded [(txt (m_name (e_msg e)), Failure (explain e (rm_data f)) (rm_data f))].

  Lemma reports_det f v ps v' ps' : reports f v ps -> reports f v' ps' -> v = v' /\ ps = ps'.
  Proof.
    intros A B. inversion A; subst; inversion B; subst; try congruence; try (split; congruence); try (exfalso; lia);
      repeat match goal with H1 : ?x = Ok ?a, H2 : ?x = Ok ?b |- _ => assert (a = b) by congruence; clear H2; subst end; try contradiction; try (exfalso; lia); split; congruence.
  Qed.
  Lemma is_container_spec e : is_container (e_container e) = true <-> e_contained e <> [].
  Proof. unfold is_container. cbn. destruct (e_contained e); cbn; split; congruence. Qed.
  Lemma display_spec m d : display_name float_text raw_initial m d = entry_name m d.
  Proof.
    unfold display_name, entry_name. destruct (is_multiplexed m); [|now rewrite app_nil_r]. unfold multiplexed_name. generalize (txt (m_name m)).
    induction (m_signals m) as [|s l IH]; intros x; [cbn; now rewrite app_nil_r|]. cbn [flat_map filter]. destruct (s_is_mux s); [|apply IH].
    cbn [map List.concat app]. change (join (txt " :: ") (x :: ?a :: ?b)) with (x ++ txt " :: " ++ join (txt " :: ") (a :: b)). rewrite IH, <- !app_assoc. 
    destruct (sget d (s_name s)) as [v|]; [reflexivity|]. destruct (raw_initial s); reflexivity.
  Qed.

  Context (stamp : Z -> chars) (unit_of : signal -> option chars) (single : bool).
  Notation writes := (writes float_text stamp unit_of single).
  Notation try_update := (try_update float_text stamp unit_of raw_initial explain single db).
  Definition keep (v : verdict) (ps : list (chars * part)) (f : raw_message) (st : state) : state :=
    match v, ps with Shown, (k, _) :: _ => set_raws st (tset (raws st) k f) | _, _ => st end.
  Lemma update_contained_writes t box l : forall st ps, inside box l = Some ps ->
    update_contained float_text stamp unit_of raw_initial single st t box l = writes st t ps.
  Proof.
    induction l as [|[[id|c] [b|d]] l IH]; intros st ps H; cbn [inside] in H; try discriminate.
    - injection H as <-. reflexivity.
    - destruct (inside box l) as [x|]; [|discriminate]. injection H as <-. cbn [update_contained Prop_Monitor.writes write bind]. now apply IH.
    - destruct (inside box l) as [x|]; [|discriminate]. injection H as <-. cbn [update_contained Prop_Monitor.writes write]. unfold format_message. rewrite display_spec, <- app_assoc.
      destruct (filter_signals st _ d) as [[d' st']|e]; [|reflexivity]. cbn [bind fst snd]. now apply IH.
  Qed.
  Lemma header_name_spec h : contained_name h = header_name h.
  Proof. reflexivity. Qed.
  Lemma try_update_writes st f v ps base : reports f v ps -> base = match basetime st with Some b => b | None => rm_time f end ->
    try_update st f = let* st' := writes (set_basetime st (Some base)) (rm_time f - base) ps in Ok (keep v ps f st', v).
  Proof.
    intros R ->. unfold Monitor.try_update. cbn zeta. set (base := match basetime st with Some b => b | None => _ end). set (st0 := set_basetime st (Some base)).
    inversion R as [G|e d G C L D|e G C L|e G C L D|e l ps' G C D I|e G C D]; subst v ps; rewrite G.
    - reflexivity.
    - assert (X : is_container (e_container e) = false) by (destruct (is_container (e_container e)) eqn:X; [apply is_container_spec in X; congruence|reflexivity]).
      rewrite X. destruct (Z.ltb_spec (zlen (rm_data f)) (m_length (e_msg e))); [lia|]. rewrite D. unfold format_message. cbn [app]. rewrite display_spec. cbn [Prop_Monitor.writes write].
      destruct (filter_signals st0 _ d) as [[d' st']|x]; [|reflexivity]. cbn [bind fst snd keep]. reflexivity.
    - assert (X : is_container (e_container e) = false) by (destruct (is_container (e_container e)) eqn:X; [apply is_container_spec in X; congruence|reflexivity]).
      rewrite X. destruct (Z.ltb_spec (zlen (rm_data f)) (m_length (e_msg e))); [|lia]. reflexivity.
    - assert (X : is_container (e_container e) = false) by (destruct (is_container (e_container e)) eqn:X; [apply is_container_spec in X; congruence|reflexivity]).
      rewrite X. destruct (Z.ltb_spec (zlen (rm_data f)) (m_length (e_msg e))); [lia|]. rewrite D. reflexivity.
    - apply is_container_spec in C. rewrite C. unfold update_container. rewrite D. cbn [bind Prop_Monitor.writes write]. rewrite (update_contained_writes _ _ _ _ _ I).
      change (fun p : (Z + contained) * payload => contained_name (fst p)) with (fun p : (Z + contained) * payload => header_name (fst p)).
      destruct (writes _ _ ps') as [st'|x] eqn:W; cbn [bind keep]; [reflexivity|].
      destruct x; try reflexivity. exfalso. revert W. generalize (update_formatted (set_msigs st0 (tset (msigs st0) (txt (m_name (e_msg e))) (map (fun p => header_name (fst p)) l))) (txt (m_name (e_msg e)))
        (format_lines stamp single (rm_time f - base) (txt (m_name (e_msg e))) (map (fun p => header_name (fst p)) l) false) false). clear.
      induction ps' as [|[k p] ps' IH]; intros s W; [discriminate|]. cbn [Prop_Monitor.writes] in W. destruct p; cbn [write bind] in W; try (now apply IH in W).
      unfold filter_signals in W. destruct (tget (fsigs _) k); cbn [bind] in W; [now apply IH in W|discriminate].
    - apply is_container_spec in C. rewrite C. unfold update_container. rewrite D. reflexivity.
  Qed.
End Report.

(** * Names *)
(** Names have no blanks, contained messages no digit 0 in front, and no container has the name of another message *)
Definition well_named (db : database) : Prop :=
  forall e, In e (map snd (db_by_id db)) ->
    ~ In " "%char (txt (m_name (e_msg e))) /\
    (forall x, In x (e_contained e) -> hd " "%char (txt (m_name (ct_msg x))) <> "0"%char) /\
    forall e', In e' (map snd (db_by_id db)) -> e_contained e <> [] -> e_contained e' = [] -> m_name (e_msg e) <> m_name (e_msg e').

Lemma txt_inj a b : txt a = txt b -> a = b.
Proof. unfold txt. intros H. rewrite <- (string_of_list_ascii_of_string a), <- (string_of_list_ascii_of_string b). now f_equal. Qed.
Fixpoint head_of (l : chars) : chars := match l with [] => [] | c :: r => if Ascii.eqb c " " then [] else c :: head_of r end.
Lemma head_of_app a b : ~ In " "%char a -> (b = [] \/ exists r, b = " "%char :: r) -> head_of (a ++ b) = a.
Proof.
  intros N B. induction a as [|c a IH]; cbn [app head_of]; [destruct B as [->|(r & ->)]; reflexivity|].
  destruct (Ascii.eqb_spec c " "%char) as [->|]; [exfalso; apply N; now left|]. rewrite IH; [reflexivity|]. intros I; apply N; now right.
Qed.

Section Clash.
  Context (float_text : spec_float -> chars) (raw_initial : signal -> option num) (explain : entry -> list Z -> chars) (db : database).
  Notation entry_name := (entry_name float_text raw_initial).
  Notation reports := (reports float_text raw_initial explain db).
  Inductive origin (k : chars) : Z -> Prop :=
  | o_values e d : In e (map snd (db_by_id db)) -> e_contained e = [] -> k = entry_name (e_msg e) d -> origin k 0
  | o_inner e x d : In e (map snd (db_by_id db)) -> In x (e_contained e) -> k = txt (m_name (e_msg e)) ++ txt " :: " ++ entry_name (ct_msg x) d -> origin k 0
  | o_contents e : In e (map snd (db_by_id db)) -> e_contained e <> [] -> k = txt (m_name (e_msg e)) -> origin k 1
  | o_opaque e id : In e (map snd (db_by_id db)) -> e_contained e <> [] -> k = txt (m_name (e_msg e)) ++ txt " :: 0x" ++ hex_text 1 id -> origin k 2.

  Lemma entry_name_tail m d : exists t, entry_name m d = txt (m_name m) ++ t /\ (t = [] \/ exists r, t = " "%char :: r).
  Proof.
    unfold Prop_Monitor.entry_name. eexists. split; [reflexivity|]. destruct (is_multiplexed m); [|now left]. destruct (filter s_is_mux (m_signals m)); [now left|]. right. cbn. eauto.
  Qed.
  Lemma origin_head k i : well_named db -> origin k i -> exists e t, In e (map snd (db_by_id db)) /\ head_of k = txt (m_name (e_msg e)) /\ k = txt (m_name (e_msg e)) ++ t /\
    (i = 0 /\ e_contained e = [] \/
     e_contained e <> [] /\ (i = 1 /\ t = [] \/ i = 0 /\ (exists c r, t = txt " :: " ++ r /\ hd " "%char r = c /\ c <> "0"%char) \/ i = 2 /\ exists r, t = txt " :: " ++ "0"%char :: r)).
  Proof.
    intros WN O. destruct O as [e d I C ->|e x d I X ->|e I C ->|e id I C ->]; destruct (WN e I) as (NB & ND & _).
    - destruct (entry_name_tail (e_msg e) d) as (t & -> & T). exists e, t. split; [exact I|]. split; [now apply head_of_app|]. split; [reflexivity|]. left. auto.
    - exists e, (txt " :: " ++ entry_name (ct_msg x) d). split; [exact I|]. split; [apply head_of_app; [exact NB|right; cbn; eauto]|]. split; [reflexivity|]. right.
      split; [intros C; rewrite C in X; contradiction|]. right. left. split; [reflexivity|]. eexists _, _. split; [reflexivity|]. split; [reflexivity|].
      destruct (entry_name_tail (ct_msg x) d) as (t & -> & T). specialize (ND x X). destruct (txt (m_name (ct_msg x))) as [|c r]; [|exact ND]. destruct T as [->|(r & ->)]; cbn; discriminate.
    - exists e, []. rewrite app_nil_r. split; [exact I|]. split; [rewrite <- (app_nil_r (txt _)) at 1; apply head_of_app; auto|]. split; [reflexivity|]. right. auto.
    - exists e, (txt " :: 0x" ++ hex_text 1 id). split; [exact I|]. split; [apply head_of_app; [exact NB|right; cbn; eauto]|]. split; [reflexivity|]. right. split; [exact C|]. right. right. split; [reflexivity|]. cbn. eauto.
  Qed.
  Lemma origin_unique k i j : well_named db -> origin k i -> origin k j -> i = j.
  Proof.
    intros WN A B. destruct (origin_head k i WN A) as (e & t & I & H & K & X). destruct (origin_head k j WN B) as (e' & t' & I' & H' & K' & X').
    assert (N : m_name (e_msg e) = m_name (e_msg e')) by (apply txt_inj; congruence). rewrite N in K. assert (t = t') by (rewrite K in K'; now apply app_inv_head in K'). subst t'.
    destruct (WN e I) as (_ & _ & D). destruct (WN e' I') as (_ & _ & D').
    destruct X as [[-> C]|[C X]], X' as [[-> C']|[C' X']]; [reflexivity|exfalso; apply (D' e I C' C); congruence|exfalso; apply (D e' I' C C'); exact N|].
    destruct X as [[-> ->]|[[-> (c & r & -> & Y & Y')]|[-> (r & ->)]]], X' as [[-> Z1]|[[-> (c' & r' & Z1 & Z2 & Z3)]|[-> (r' & Z1)]]]; try reflexivity; try discriminate; exfalso.
    - injection Z1 as ->. cbn in Y. congruence.
    - injection Z1 as <-. cbn in Z2. congruence.
  Qed.
  Lemma inside_origin e l ps : In e (map snd (db_by_id db)) -> e_contained e <> [] -> (forall x p, In (inr x, p) l -> In x (e_contained e)) ->
    inside float_text raw_initial (txt (m_name (e_msg e))) l = Some ps -> forall k p, In (k, p) ps -> exists i, kind p = Some i /\ origin k i.
  Proof.
    intros I C. revert ps. induction l as [|[[id|x] [b|d]] l IH]; intros ps X H; cbn [inside] in H; try discriminate.
    - injection H as <-. intros k p [].
    - destruct (inside float_text raw_initial (txt (m_name (e_msg e))) l) as [q|] eqn:Q; [|discriminate]. injection H as <-. intros k p [J|J].
      + injection J as <- <-. exists 2. split; [reflexivity|]. now apply (o_opaque _ e id).
      + apply (IH q); auto. intros y r Y. apply (X y r). now right.
    - destruct (inside float_text raw_initial (txt (m_name (e_msg e))) l) as [q|] eqn:Q; [|discriminate]. injection H as <-. intros k p [J|J].
      + injection J as <- <-. exists 0. split; [reflexivity|]. apply (o_inner _ e x d); auto. apply (X x (PDict d)). now left.
      + apply (IH q); auto. intros y r Y. apply (X y r). now right.
  Qed.
  Lemma decode_items_in dc sc at_ ae l : forall out, decode_items l dc sc at_ ae = Ok out -> forall x p, In (inr x, p) out -> exists b, In (inr x, b) l.
  Proof.
    induction l as [|[[id|y] b] l IH]; intros out H x p I; cbn [decode_items] in H.
    - apply Ok_inj in H. subst out. contradiction.
    - apply bind_ok in H as (tl & T & H). apply Ok_inj in H. subst out. destruct I as [I|I]; [discriminate|]. destruct (IH tl T x p I) as (b' & B). exists b'. now right.
    - apply bind_ok in H as (q & _ & H). apply bind_ok in H as (tl & T & H). apply Ok_inj in H. subst out. destruct I as [I|I]; [injection I as -> ->; exists b; now left|].
      destruct (IH tl T x p I) as (b' & B). exists b'. now right.
  Qed.
  Lemma found_in id ext e : get_message_by_frame_id db id ext = Ok e -> In e (map snd (db_by_id db)).
  Proof.
    unfold get_message_by_frame_id, zget_exn. destruct (zget (db_by_id db) _) as [x|] eqn:G; [|discriminate]. intros H. apply Ok_inj in H. subst x.
    apply (get_in _ Z.eqb_spec) in G. apply (in_map snd) in G. exact G.
  Qed.
  Lemma report_origin f v ps k p i : bytes_ok (rm_data f) -> reports f v ps -> In (k, p) ps -> kind p = Some i -> origin k i.
  Proof.
    intros BO R I K. inversion R as [G|e d G C L D|e G C L|e G C L D|e l ps' G C D IN|e G C D]; subst v ps; try contradiction; apply found_in in G.
    - destruct I as [I|[]]. injection I as <- <-. injection K as <-. now apply (o_values _ e d).
    - destruct I as [I|[]]. injection I as <- <-. discriminate.
    - destruct I as [I|[]]. injection I as <- <-. discriminate.
    - destruct I as [I|I]; [injection I as <- <-; injection K as <-; now apply (o_contents _ e)|].
      destruct (inside_origin e l ps' G C) with (k := k) (p := p) as (j & J & O); auto; [|congruence].
      intros x q Q. unfold decode_container in D. destruct (negb (is_container (e_container e))); [discriminate|]. apply bind_ok in D as (u & U & D).
      destruct (decode_items_in _ _ _ _ _ _ D x q Q) as (b & B). unfold unpack_container in U. destruct (negb (is_container (e_container e))); [discriminate|].
      destruct (cn_length (e_container e) <? zlen (rm_data f)); [discriminate|]. apply unpacked_contained in U; [|exact BO]. rewrite Forall_forall in U. destruct (U _ B) as [_ U']. exact (U' x eq_refl).
    - destruct I as [I|[]]. injection I as <- <-. discriminate.
  Qed.

  (** The parts of frames, with time stamps relative to [base] *)
  Definition reported (base : Z) (f : raw_message) (h : history) : Prop := exists v ps, reports f v ps /\ h = at_time (rm_time f - base) ps.
  Definition log (base : Z) (l : list raw_message) (h : history) : Prop := exists hs, Forall2 (reported base) l hs /\ h = List.concat hs.
  Lemma log_origin base l h : log base l h -> Forall (fun f => bytes_ok (rm_data f)) l -> forall t k p i, In (t, k, p) h -> kind p = Some i -> origin k i.
  Proof.
    intros (hs & F & ->) BO. induction F as [|f x l hs (v & ps & R & ->) F IH]; intros t k p i I K; [contradiction|]. apply Forall_cons_iff in BO as [B BO]. cbn [List.concat] in I. apply in_app_iff in I as [I|I].
    - unfold at_time in I. apply in_map_iff in I as ([k' p'] & X & I). injection X as <- <- <-. exact (report_origin f v ps k' p' i B R I K).
    - now apply (IH BO t k p i).
  Qed.
  Lemma own_in k h e : In e (own k h) -> In (fst e, k, snd e) h.
  Proof.
    unfold own. rewrite in_map_iff. intros ([[t x] p] & <- & I). apply filter_In in I as [I X]. cbn in *. destruct (chars_spec x k) as [->|]; [exact I|discriminate].
  Qed.
  Lemma no_clash h : well_named db -> (forall t k p i, In (t, k, p) h -> kind p = Some i -> origin k i) -> forall k, ~ clash (own k h).
  Proof.
    intros WN H k (e & f & i & j & I & J & A & B & N). apply own_in in I, J. apply N. apply (origin_unique k); [exact WN|exact (H _ k (snd e) i I A)|exact (H _ k (snd f) j J B)].
  Qed.
End Clash.

(** * Events *)
(** What the keys and the frames mean: the text before and after the cursor and the former filter while the filter is edited, the
    filter otherwise, the compiled filter, whether the monitor plays, the frames that wait, all frames that were taken from
    the queue, and those since the last reset *)
Record track := mkTrack { tk_edit : option (chars * chars * chars); tk_text : chars; tk_search : option (chars -> bool); tk_playing : bool;
  tk_pending : list raw_message; tk_done : list raw_message; tk_since : list raw_message }.
Section Track.
  Context (compile : chars -> option (chars -> bool)).
  Definition whole (t : track) : chars := match tk_edit t with Some (a, b, _) => a ++ b | None => tk_text t end.
  Definition with_edit (t : track) (e : option (chars * chars * chars)) (text : chars) : track :=
    mkTrack e text (compile (match e with Some (a, b, _) => a ++ b | None => text end)) (tk_playing t) (tk_pending t) (tk_done t) (tk_since t).
  Definition key_meaning (t : track) (k : keypress) : option track :=
    match tk_edit t with
    | None =>
        match k with
        | Char "q" => None
        | Char "p" => Some (mkTrack None (tk_text t) (tk_search t) (negb (tk_playing t)) (tk_pending t) (tk_done t) (tk_since t))
        | Char "r" => Some (mkTrack None [] None true [] (tk_done t) [])
        | Char "f" | Char "/" => Some (mkTrack (Some (tk_text t, [], tk_text t)) (tk_text t) (tk_search t) (tk_playing t) (tk_pending t) (tk_done t) (tk_since t))
        | _ => Some t
        end
    | Some (a, b, old) =>
        Some match k with
             | Char "010" => with_edit t None (a ++ b)
             | Char "027" => with_edit t None old
             | KBackspace | Char "008" => with_edit t (Some (removelast a, b, old)) (tk_text t)
             | KDelete => with_edit t (Some (a, tl b, old)) (tk_text t)
             | KLeft => with_edit t (Some (match rev a with [] => (a, b, old) | c :: _ => (removelast a, c :: b, old) end)) (tk_text t)
             | KRight => with_edit t (Some (match b with [] => (a, b, old) | c :: r => (a ++ [c], r, old) end)) (tk_text t)
             | Char c => with_edit t (Some (a ++ [c], b, old)) (tk_text t)
             | _ => with_edit t (Some (a, b, old)) (tk_text t)
             end
    end.
  Fixpoint keys_meaning (t : track) (l : list keypress) : option track :=
    match l with [] => Some t | k :: r => match key_meaning t k with Some t' => keys_meaning t' r | None => None end end.
  Definition taken (t : track) : track :=
    if tk_playing t then mkTrack (tk_edit t) (tk_text t) (tk_search t) true [] (tk_done t ++ tk_pending t) (tk_since t ++ tk_pending t) else t.
  Fixpoint meaning (t : track) (l : list event) : option track :=
    match l with
    | [] => Some t
    | Frame f :: r => meaning (mkTrack (tk_edit t) (tk_text t) (tk_search t) (tk_playing t) (tk_pending t ++ [f]) (tk_done t) (tk_since t)) r
    | Tick _ ks :: r => match keys_meaning (taken t) ks with Some t' => meaning t' r | None => None end
    end.
  Definition begin (text : chars) : track := mkTrack None text (compile text) true [] [] [].
End Track.
Definition frames_of (l : list event) : list raw_message := flat_map (fun e => match e with Frame f => [f] | Tick _ _ => [] end) l.

Section Sim.
  Context (compile : chars -> option (chars -> bool)) (float_text : spec_float -> chars) (stamp : Z -> chars)
          (unit_of : signal -> option chars) (raw_initial : signal -> option num) (explain : entry -> list Z -> chars)
          (single : bool) (db : database) (WN : well_named db).
  Notation reports := (reports float_text raw_initial explain db).
  Notation origin := (origin float_text raw_initial db).
  Notation write := (write float_text stamp unit_of single).
  Notation writes := (writes float_text stamp unit_of single).
  Notation try_update := (try_update float_text stamp unit_of raw_initial explain single db).
  Notation process := (process float_text stamp unit_of raw_initial explain single db).
  Notation shows_history := (shows_history float_text stamp unit_of single).
  Notation log := (log float_text raw_initial explain db).
  Notation run := (run compile float_text stamp unit_of raw_initial explain single db).
  Notation step := (step compile float_text stamp unit_of raw_initial explain single db).
  Notation filter_key := (filter_key compile float_text stamp unit_of raw_initial explain single db).
  Notation keys := (keys compile float_text stamp unit_of raw_initial explain single db).
  Notation reformat := (reformat float_text stamp unit_of raw_initial explain single db).
  Notation update := (update float_text stamp unit_of raw_initial explain single db).

  Record sound (st : state) : Prop := mkSound {
    so_sorted : StronglySorted before (names st);
    so_lines : forall k, In k (names st) -> tget (formatted st) k <> None;
    so_msigs : forall k, tget (msigs st) k <> None -> tget (fsigs st) k <> None \/ origin k 1 }.
  Lemma sound_rest a b : sound a -> names b = names a -> formatted b = formatted a -> msigs b = msigs a -> fsigs b = fsigs a -> sound b.
  Proof. intros [A B C] N F M S. constructor; rewrite ?N, ?F, ?M, ?S; auto. Qed.
  Lemma update_formatted_errors st k ls err x : sound st -> In x (with_error (update_formatted st k ls err)) -> In x (with_error st) \/ (x = k /\ err = true).
  Proof.
    intros [A _ _] I. destruct (update_formatted_spec st k ls err A) as (B1 & _ & _ & _ & _ & B6 & _). cbn zeta in *. destruct (list_eq_dec ascii_dec x k) as [->|N]; [right; split; [reflexivity|now apply B6]|].
    left. destruct (B1 x N) as (_ & _ & _ & _ & O). now apply O.
  Qed.
  Lemma update_formatted_sound st k ls err : sound st -> sound (update_formatted st k ls err) /\ rest (update_formatted st k ls err) = rest st.
  Proof.
    intros [A B C]. destruct (update_formatted_spec st k ls err A) as (B1 & B2 & B3 & B4 & B5 & B6 & B7 & B8). cbn zeta in *. split; [|exact B2].
    assert (CS : forall x, x = k \/ x <> k) by (intros x; destruct (list_eq_dec ascii_dec x k); auto).
    constructor; [exact B3| |]; intros x; destruct (CS x) as [->|N].
    - rewrite B4. discriminate.
    - destruct (B1 x N) as (O1 & O2 & _). rewrite <- O1, <- O2. apply B.
    - rewrite B5, B8. intros M. specialize (C k M). destruct C as [C|C]; [left|auto]. destruct (member k (names st) || err); [exact C|]. destruct (tget (msigs st) k); [|exact C]. destruct (existsb _ _); [discriminate|exact C].
    - destruct (B1 x N) as (_ & _ & O3 & O4 & _). rewrite <- O3, <- O4. apply C.
  Qed.
  Lemma filter_signals_sound st k d : sound st -> origin k 0 -> exists x st', filter_signals st k d = Ok (x, st') /\ rest st' = rest st /\ forall ls, sound (update_formatted st' k ls false) /\ rest (update_formatted st' k ls false) = rest st /\
      forall x, In x (with_error (update_formatted st' k ls false)) -> In x (with_error st).
  Proof.
    intros SO O. unfold filter_signals, dmem. destruct (tget (msigs st) k) as [l|] eqn:M.
    - pose proof SO as [A B C]. destruct (tget (fsigs st) k) as [l'|] eqn:F.
      + eexists _, st. split; [reflexivity|]. split; [reflexivity|]. intros ls. destruct (update_formatted_sound st k ls false SO) as [U1 U2]. split; [exact U1|]. split; [exact U2|]. intros x I. apply update_formatted_errors in I as [I|[_ [=]]]; [exact I|exact SO].
      + exfalso. destruct (C k) as [X|X]; [congruence|contradiction|]. pose proof (origin_unique float_text raw_initial db k 0 1 WN O X). discriminate.
    - set (st0 := set_fsigs _ _). destruct SO as [A B C]. destruct (insort_filtered_spec st0 k A) as (A1 & A2 & A3 & A4 & A5 & A6 & A7 & A8). cbn zeta in *. set (st1 := insort_filtered st0 k) in *.
      assert (FK : tget (fsigs st0) k = Some (map (fun p => txt (fst p)) d)) by (unfold st0; cbn; apply tget_same).
      assert (FS : tget (fsigs st1) k <> None).
      { rewrite A8, FK. destruct (_ || _); [discriminate|]. destruct (tget (msigs st0) k); [destruct (existsb _ _)|]; discriminate. }
      destruct (tget (fsigs st1) k) as [l|] eqn:F; [|contradiction]. eexists _, st1. split; [reflexivity|]. split; [exact A2|]. intros ls.
      destruct (update_formatted_spec st1 k ls false A3) as (B1 & B2 & B3 & B4 & B5 & B6 & B7 & B8). cbn zeta in *.
      assert (EX : forall x, In x (with_error (update_formatted st1 k ls false)) -> In x (with_error st)).
      { intros x I. destruct (list_eq_dec ascii_dec x k) as [->|N]; [apply B6 in I; discriminate|]. destruct (B1 x N) as (_ & _ & _ & _ & P5). apply P5 in I. rewrite A6 in I. exact I. }
      split; [|split; [rewrite B2; exact A2|exact EX]].
      assert (O1 : others k st st1). { eapply others_trans; [|exact A1]. intros x N. unfold agrees, st0. cbn. rewrite !tget_other by exact N. repeat split; auto. }
      assert (CS : forall x, x = k \/ x <> k) by (intros x; destruct (list_eq_dec ascii_dec x k); auto).
      constructor; [exact B3| |]; intros x; destruct (CS x) as [->|N].
      + rewrite B4. discriminate.
      + destruct (B1 x N) as (P1 & P2 & _). destruct (O1 x N) as (Q1 & Q2 & _). rewrite <- P1, <- P2, <- Q1, <- Q2. apply B.
      + intros _. left. rewrite B8, F, orb_false_r. destruct (member k (names st1)); [discriminate|]. destruct (tget (msigs st1) k); [destruct (existsb _ _)|]; discriminate.
      + destruct (B1 x N) as (_ & _ & P3 & P4 & _). destruct (O1 x N) as (_ & _ & Q3 & Q4 & _). rewrite <- P3, <- P4, <- Q3, <- Q4. apply C.
  Qed.
  Lemma write_sound st t k p : sound st -> (forall i, kind p = Some i -> origin k i) -> exists st', write st t k p = Ok st' /\ sound st' /\ rest st' = rest st /\
    forall x, In x (with_error st') -> In x (with_error st) \/ exists y b, (x, Failure y b) = (k, p).
  Proof.
    intros SO O. destruct p as [m d|l|b|y b]; cbn [Prop_Monitor.write].
    - destruct (filter_signals_sound st k d SO (O 0 eq_refl)) as (x & st1 & F & R & U). rewrite F. cbn [bind]. eexists. split; [reflexivity|]. destruct (U (format_lines stamp single t k (format_signals float_text unit_of m x) false)) as (U1 & U2 & U3). split; [exact U1|]. split; [exact U2|]. intros z I. left. now apply U3.
    - assert (S1 : sound (set_msigs st (tset (msigs st) k l))).
      { destruct SO as [A B C]. constructor; [exact A|exact B|]. cbn. intros x. destruct (list_eq_dec ascii_dec x k) as [->|N]; [intros _; right; now apply O|]. rewrite tget_other by exact N. apply C. }
      eexists. split; [reflexivity|]. pose proof (fun ls => update_formatted_sound (set_msigs st (tset (msigs st) k l)) k ls false S1) as U. split; [apply U|]. split; [apply U|].
      intros x I. apply update_formatted_errors in I as [I|[_ [=]]]; [now left|exact S1].
    - eexists. split; [reflexivity|]. pose proof (fun ls => update_formatted_sound st k ls false SO) as U. split; [apply U|]. split; [apply U|]. intros x I. apply update_formatted_errors in I as [I|[_ [=]]]; [now left|exact SO].
    - eexists. split; [reflexivity|]. unfold message_error. pose proof (fun ls => update_formatted_sound st k ls true SO) as U. split; [apply U|]. split; [apply U|]. intros x I. apply update_formatted_errors in I as [I|[-> _]]; [now left|right; eauto|exact SO].
  Qed.
  Lemma writes_sound t l : forall st, sound st -> (forall k p i, In (k, p) l -> kind p = Some i -> origin k i) -> exists st', writes st t l = Ok st' /\ sound st' /\ rest st' = rest st /\
    forall x, In x (with_error st') -> In x (with_error st) \/ exists y b, In (x, Failure y b) l.
  Proof.
    induction l as [|[k p] l IH]; intros st SO O; cbn [Prop_Monitor.writes]; [exists st; auto|].
    destruct (write_sound st t k p SO) as (st1 & W & S1 & R1 & E1); [intros i K; apply (O k p i); [now left|exact K]|]. rewrite W. cbn [bind].
    destruct (IH st1 S1) as (st2 & W2 & S2 & R2 & E2); [intros x q i I; apply O; now right|]. exists st2. split; [exact W2|]. split; [exact S2|]. split; [congruence|].
    intros x I. destruct (E2 x I) as [J|(y & b & J)]; [|right; exists y, b; now right]. destruct (E1 x J) as [H|(y & b & H)]; [now left|]. right. exists y, b. left. now symmetry.
  Qed.

  (** One frame: the screen stays sound, and shows the history with the parts of the frame *)
  Definition base_at (st : state) (f : raw_message) : Z := match basetime st with Some b => b | None => rm_time f end.
  Lemma try_update_ok st f v ps : sound st -> reports f v ps -> bytes_ok (rm_data f) ->
    exists st', try_update st f = Ok (st', v) /\ sound st' /\ rest st' = rest (keep v ps f (set_basetime st (Some (base_at st f)))) /\
      (forall x, In x (with_error st') -> In x (with_error st) \/ exists y b, In (x, Failure y b) ps) /\
      forall search E h, shows_history search E h st -> (forall k, ~ clash (own k (h ++ at_time (rm_time f - base_at st f) ps))) -> shows_history search E (h ++ at_time (rm_time f - base_at st f) ps) st'.
  Proof.
    intros SO R BO. set (b := base_at st f). rewrite (try_update_writes float_text raw_initial explain db stamp unit_of single st f v ps b R eq_refl).
    set (st0 := set_basetime st (Some b)). assert (S0 : sound st0) by (apply (sound_rest st); auto).
    destruct (writes_sound (rm_time f - b) ps st0 S0) as (st1 & W & S1 & R1 & E1); [intros k p i I K; exact (report_origin float_text raw_initial explain db f v ps k p i BO R I K)|].
    rewrite W. cbn [bind]. exists (keep v ps f st1). split; [reflexivity|].
    assert (KS : forall a, names (keep v ps f a) = names a /\ formatted (keep v ps f a) = formatted a /\ msigs (keep v ps f a) = msigs a /\ fsigs (keep v ps f a) = fsigs a /\ with_error (keep v ps f a) = with_error a /\ compiled (keep v ps f a) = compiled a).
    { intros a. unfold keep. destruct v; [destruct ps as [|[k p] ps]|..]; cbn; auto 10. }
    destruct (KS st1) as (K1 & K2 & K3 & K4 & K5 & K6). split; [now apply (sound_rest st1)|]. split; [|split].
    - assert (RA : raws st1 = raws st0) by (unfold rest in R1; congruence). unfold keep. destruct v; [|exact R1|exact R1]. destruct ps as [|[k p] ps]; [exact R1|].
      unfold rest in *. cbn [raws playing modified show_filter filter_text cursor old_filter compiled queue received discarded errors basetime first_row rows set_raws] in *. rewrite RA. congruence.
    - rewrite K5. exact E1.
    - intros search E h H NC. destruct (writes_step float_text stamp unit_of single search E (rm_time f - b) ps h st0) as (st2 & W2 & H2 & _); [apply (shows_rest _ _ _ _ _ _ _ st); auto|exact NC|].
      rewrite W in W2. apply Ok_inj in W2. subst st2. now apply (shows_rest _ _ _ _ _ _ _ st1).
  Qed.

  Definition core (st : state) := (playing st, modified st, show_filter st, filter_text st, cursor st, old_filter st, compiled st, queue st, first_row st, rows st).
  Definition counters (st : state) := (received st, discarded st, errors st).
  Definition good (f : raw_message) : Prop := bytes_ok (rm_data f) /\ exists v ps, reports f v ps.
  (** The last frame that was shown under an entry *)
  Definition latest (l : list raw_message) (k : chars) (f : raw_message) : Prop :=
    exists a b p ps, l = a ++ f :: b /\ reports f Shown ((k, p) :: ps) /\ forall g q qs, In g b -> ~ reports g Shown ((k, q) :: qs).
  Definition latest_frames (l : list raw_message) (r : list (chars * raw_message)) : Prop := NoDup (map fst r) /\ forall k f, tget r k = Some f <-> latest l k f.
  (** The number of frames with a verdict *)
  Definition verdict_eqb (a b : verdict) : bool := match a, b with Shown, Shown | Unknown, Unknown | Undecoded, Undecoded => true | _, _ => false end.
  Definition counted (v : verdict) (l : list raw_message) (n : Z) : Prop :=
    exists vs, Forall2 (fun f v => exists ps, reports f v ps) l vs /\ n = zlen (filter (verdict_eqb v) vs).
  Definition first_base (st : state) (l : list raw_message) : Z := match basetime st, l with Some b, _ => b | None, f :: _ => rm_time f | None, [] => 0 end.

  Lemma latest_snoc l f v ps r : latest_frames l r -> reports f v ps -> latest_frames (l ++ [f]) (raws (keep v ps f (set_raws (start compile [] 0) r))).
  Proof.
    intros [ND H] R.
    assert (OLD : forall k g, (forall p qs, ~ reports f Shown ((k, p) :: qs)) -> (latest (l ++ [f]) k g <-> latest l k g)).
    { intros k g N. split.
      - intros (a & b & p & qs & L & RG & X). destruct (rev b) as [|y b'] eqn:RB.
        + assert (b = []) as -> by (rewrite <- (rev_involutive b), RB; reflexivity). apply app_inj_tail in L as [-> ->]. exfalso. now apply (N p qs).
        + assert (B : b = rev b' ++ [y]) by (rewrite <- (rev_involutive b), RB; reflexivity). rewrite B in L. change (a ++ g :: rev b' ++ [y]) with (a ++ (g :: rev b') ++ [y]) in L. rewrite app_assoc in L. apply app_inj_tail in L as [-> ->].
          exists a, (rev b'), p, qs. split; [reflexivity|]. split; [exact RG|]. intros x q xs I. apply X. rewrite B. apply in_or_app. now left.
      - intros (a & b & p & qs & -> & RG & X). exists a, (b ++ [f]), p, qs. split; [now rewrite <- app_assoc|]. split; [exact RG|]. intros x q xs I. apply in_app_iff in I as [I|[<-|[]]]; [now apply X|apply N]. }
    unfold keep. destruct v; [destruct ps as [|[k p] ps]|..]; cbn [raws set_raws start].
    - exfalso. inversion R.
    - split; [apply (set_nodup _ chars_spec); exact ND|]. intros k' g. rewrite (get_set _ chars_spec). destruct (chars_spec k k') as [<-|N].
      + split.
        * intros [= <-]. exists l, [], p, ps. split; [reflexivity|]. split; [exact R|]. intros ? ? ? [].
        * intros (a & b & q & qs & L & RG & X). f_equal. destruct (rev b) as [|y b'] eqn:RB.
          -- assert (b = []) as -> by (rewrite <- (rev_involutive b), RB; reflexivity). now apply app_inj_tail in L as [_ ->].
          -- exfalso. assert (B : b = rev b' ++ [y]) by (rewrite <- (rev_involutive b), RB; reflexivity). rewrite B in L. change (a ++ g :: rev b' ++ [y]) with (a ++ (g :: rev b') ++ [y]) in L. rewrite app_assoc in L.
             apply app_inj_tail in L as [_ <-]. apply (X f p ps); [rewrite B; apply in_or_app; right; now left|exact R].
      + rewrite H. symmetry. apply OLD. intros q qs R'. destruct (reports_det _ _ _ _ _ _ _ _ _ R R') as [_ X]. congruence.
    - split; [exact ND|]. intros k g. rewrite H. symmetry. apply OLD. intros q qs R'. destruct (reports_det _ _ _ _ _ _ _ _ _ R R'). discriminate.
    - split; [exact ND|]. intros k g. rewrite H. symmetry. apply OLD. intros q qs R'. destruct (reports_det _ _ _ _ _ _ _ _ _ R R'). discriminate.
  Qed.
  Lemma counted_snoc v l n f v' ps : counted v l n -> reports f v' ps -> counted v (l ++ [f]) (n + if verdict_eqb v v' then 1 else 0).
  Proof.
    intros (vs & F & ->) R. exists (vs ++ [v']). split; [apply Forall2_app; [exact F|constructor; [eauto|constructor]]|]. rewrite filter_app. unfold zlen. rewrite app_length. cbn [filter]. destruct (verdict_eqb v v'); cbn [List.length]; lia.
  Qed.
  Lemma log_cons b f v ps l h : reports f v ps -> log b l h -> log b (f :: l) (at_time (rm_time f - b) ps ++ h).
  Proof. intros R (hs & F & ->). exists (at_time (rm_time f - b) ps :: hs). split; [|reflexivity]. constructor; [exists v, ps; auto|exact F]. Qed.
  Lemma log_nil b : log b [] [].
  Proof. exists []. split; [constructor|reflexivity]. Qed.
  Lemma log_app b l1 h1 l2 h2 : log b l1 h1 -> log b l2 h2 -> log b (l1 ++ l2) (h1 ++ h2).
  Proof. intros (a & A & ->) (c & C & ->). exists (a ++ c). split; [now apply Forall2_app|now rewrite concat_app]. Qed.

  (** The entry has the name of a message whose frame could not be decoded *)
  Definition failed (l : list raw_message) (k : chars) : Prop := exists f y b, In f l /\ reports f Undecoded [(k, Failure y b)].
  Lemma failure_report f v ps k y b : reports f v ps -> In (k, Failure y b) ps -> reports f Undecoded [(k, Failure y b)].
  Proof.
    intros R I. destruct R as [G|e d G C L D|e G C L|e G C L D|e l ps G C D IN|e G C D]; try contradiction; try (destruct I as [I|[]]; try discriminate; injection I as <- <- <-).
    - now apply rp_short.
    - now apply rp_bad.
    - exfalso. destruct I as [I|I]; [discriminate|]. clear - I IN. revert ps IN I. induction l as [|[[id|x] [bb|d]] l IH]; intros ps IN I; cbn [inside] in IN; try discriminate; [injection IN as <-; contradiction| |];
        destruct (inside float_text raw_initial (txt (m_name (e_msg e))) l) as [q|]; try discriminate; injection IN as <-; (destruct I as [I|I]; [discriminate|]); now apply (IH q).
    - now apply rp_bad_container.
  Qed.
  Lemma process_ok fs : forall st done since, sound st -> (forall k, In k (with_error st) -> failed done k) -> Forall good fs -> latest_frames done (raws st) -> received st = zlen since -> counted Unknown since (discarded st) -> counted Undecoded done (errors st) ->
    exists st', process st fs = Ok st' /\ sound st' /\ (forall k, In k (with_error st') -> failed (done ++ fs) k) /\ core st' = core st /\ latest_frames (done ++ fs) (raws st') /\ received st' = zlen (since ++ fs) /\ counted Unknown (since ++ fs) (discarded st') /\
      counted Undecoded (done ++ fs) (errors st') /\ basetime st' = match fs with [] => basetime st | _ => Some (first_base st fs) end /\
      exists h', log (first_base st fs) fs h' /\ forall search E h, shows_history search E h st -> (forall k, ~ clash (own k (h ++ h'))) -> shows_history search E (h ++ h') st'.
  Proof.
    induction fs as [|f fs IH]; intros st dn since SO WE G L RC DC ER.
    - exists st. rewrite !app_nil_r. repeat (split; [auto|]). exists []. split; [apply log_nil|]. intros. now rewrite app_nil_r.
    - apply Forall_cons_iff in G as [[BO (v & ps & R)] G]. destruct (try_update_ok st f v ps SO R BO) as (st1 & T & S1 & R1 & X1 & SH). cbn [Monitor.process]. rewrite T. cbn [bind].
      set (st2 := set_counters _ _ _ _).
      assert (KR : forall a, keep v ps f a = set_raws a (raws (keep v ps f (set_raws (start compile [] 0) (raws a))))).
      { intros a. unfold keep. destruct v; [destruct ps as [|[k p] ps]|..]; destruct a; reflexivity. }
      rewrite KR in R1. set (rw := raws (keep v ps f _)) in R1.
      assert (RW : rw = raws (keep v ps f (set_raws (start compile [] 0) (raws st)))) by reflexivity.
      unfold rest in R1. cbn [raws playing modified show_filter filter_text cursor old_filter compiled queue received discarded errors basetime first_row rows set_raws set_basetime] in R1.
      assert (E1 : raws st1 = rw) by congruence. assert (E2 : received st1 = received st) by congruence. assert (E3 : discarded st1 = discarded st) by congruence. assert (E4 : errors st1 = errors st) by congruence.
      assert (E5 : basetime st1 = Some (base_at st f)) by congruence. assert (E6 : core st1 = core st) by (unfold core; congruence).
      destruct (IH st2 (dn ++ [f]) (since ++ [f])) as (st' & P & Q1 & QE & Q2 & Q3 & Q4 & Q5 & Q6 & Q7 & h' & LG & SHH).
      + now apply (sound_rest st1).
      + intros x I. destruct (X1 x I) as [J|(y & b & J)]; [destruct (WE x J) as (g & y & b & K & K'); exists g, y, b; split; [apply in_or_app; now left|exact K']|].
        exists f, y, b. split; [apply in_or_app; right; now left|exact (failure_report f v ps x y b R J)].
      + exact G.
      + unfold st2. cbn [raws set_counters]. rewrite E1, RW. now apply latest_snoc.
      + unfold st2. cbn [received set_counters]. rewrite E2, RC. unfold zlen. rewrite app_length. cbn [List.length]. lia.
      + unfold st2. cbn [discarded set_counters]. rewrite E3. replace (match v with Unknown => 1 | _ => 0 end) with (if verdict_eqb Unknown v then 1 else 0) by (now destruct v). now apply counted_snoc with ps.
      + unfold st2. cbn [errors set_counters]. rewrite E4. replace (match v with Undecoded => 1 | _ => 0 end) with (if verdict_eqb Undecoded v then 1 else 0) by (now destruct v). now apply counted_snoc with ps.
      + exists st'. rewrite <- !app_assoc in *. cbn [app] in *. split; [exact P|]. split; [exact Q1|]. split; [exact QE|]. split; [rewrite Q2; unfold st2, core in *; cbn; congruence|]. split; [exact Q3|]. split; [exact Q4|]. split; [exact Q5|]. split; [exact Q6|].
        assert (FB : first_base st2 fs = base_at st f) by (unfold first_base, st2; cbn [basetime set_counters]; now rewrite E5).
        assert (FB' : first_base st (f :: fs) = base_at st f) by (unfold first_base, base_at; now destruct (basetime st)).
        rewrite FB', FB in *. split; [destruct fs; [rewrite Q7; unfold st2; cbn; exact E5|exact Q7]|].
        exists (at_time (rm_time f - base_at st f) ps ++ h'). split; [now apply log_cons with v|]. intros search E h H NC. rewrite app_assoc. apply SHH; [|rewrite <- app_assoc; exact NC].
        apply (shows_rest _ _ _ _ _ _ _ st1); auto. apply SH; [exact H|]. intros k. specialize (NC k). rewrite app_assoc, own_app in NC. eapply clash_part; exact NC.
  Qed.
  Lemma tset_same_value {V} (d : list (chars * V)) k v : tget d k = Some v -> tset d k v = d.
  Proof. induction d as [|[k0 v0] d IH]; cbn; [discriminate|]. destruct (chars_eqb k0 k); [intros [= ->]; reflexivity|]. intros H. now rewrite IH. Qed.
  Lemma reformat_ok l : forall st, sound st -> (forall k f, In (k, f) l -> tget (raws st) k = Some f /\ bytes_ok (rm_data f) /\ exists p ps, reports f Shown ((k, p) :: ps)) ->
    exists st', reformat st l = inl st' /\ sound st' /\ (forall k, In k (with_error st') -> In k (with_error st)) /\ core st' = core st /\ raws st' = raws st /\ counters st' = counters st /\ basetime st' = (match l with [] => basetime st | _ => Some (first_base st (map snd l)) end) /\
      exists h', log (first_base st (map snd l)) (map snd l) h' /\ forall search E h, shows_history search E h st -> (forall k, ~ clash (own k (h ++ h'))) -> shows_history search E (h ++ h') st'.
  Proof.
    induction l as [|[k f] l IH]; intros st SO G.
    - exists st. repeat (split; [auto|]). exists []. split; [apply log_nil|]. intros. now rewrite app_nil_r.
    - destruct (G k f) as (GK & BO & p & ps & R); [now left|]. destruct (try_update_ok st f Shown ((k, p) :: ps) SO R BO) as (st1 & T & S1 & R1 & X1 & SH). cbn [Monitor.reformat]. rewrite T.
      unfold rest, keep in R1. cbn [raws playing modified show_filter filter_text cursor old_filter compiled queue received discarded errors basetime first_row rows set_raws set_basetime] in R1. rewrite (tset_same_value _ _ _ GK) in R1.
      assert (E1 : raws st1 = raws st) by congruence. assert (E2 : counters st1 = counters st) by (unfold counters; congruence).
      assert (E5 : basetime st1 = Some (base_at st f)) by congruence. assert (E6 : core st1 = core st) by (unfold core; congruence).
      rewrite E1, Nat.eqb_refl. destruct (IH st1 S1) as (st' & P & Q1 & QE & Q2 & Q3 & Q4 & Q5 & h' & LG & SHH); [intros x g I; rewrite E1; apply G; now right|].
      exists st'. split; [exact P|]. split; [exact Q1|]. split.
      { intros x I. destruct (X1 x (QE x I)) as [J|(y & b & J)]; [exact J|]. apply (failure_report _ _ _ _ _ _ R) in J. destruct (reports_det _ _ _ _ _ _ _ _ _ R J). discriminate. }
      split; [congruence|]. split; [congruence|]. split; [congruence|]. cbn [map snd].
      assert (FB : first_base st1 (map snd l) = base_at st f) by (unfold first_base; now rewrite E5).
      assert (FB' : first_base st (f :: map snd l) = base_at st f) by (unfold first_base, base_at; now destruct (basetime st)).
      rewrite FB', FB in *. split; [rewrite Q5; now destruct l|]. exists (at_time (rm_time f - base_at st f) ((k, p) :: ps) ++ h'). split; [now apply log_cons with Shown|]. intros search E h H NC. rewrite app_assoc. apply SHH; [|rewrite <- app_assoc; exact NC].
      apply SH; [exact H|]. intros x. specialize (NC x). rewrite app_assoc, own_app in NC. eapply clash_part; exact NC.
  Qed.

  (** The state shows the frames [fs] with the filter [search] *)
  Definition base_of (st : state) : Z := match basetime st with Some b => b | None => 0 end.
  Definition shown_from (search : option (chars -> bool)) (E : list chars) (fs : list raw_message) (st : state) : Prop :=
    (basetime st = None -> fs = []) /\ exists h, log (base_of st) fs h /\ shows_history search E h st.
  (** The state agrees with the meaning of the events *)
  Definition input_ok (tr : track) (st : state) : Prop :=
    show_filter st = (match tk_edit tr with Some _ => true | None => false end) /\ filter_text st = whole tr /\
    forall a b old, tk_edit tr = Some (a, b, old) -> cursor st = List.length a /\ old_filter st = Some old.
  Record tracked (tr : track) (st : state) : Prop := mkTracked {
    td_sound : sound st;
    td_input : input_ok tr st;
    td_search : compiled st = tk_search tr;
    td_playing : playing st = tk_playing tr;
    td_queue : queue st = tk_pending tr;
    td_received : received st = zlen (tk_since tr);
    td_discarded : counted Unknown (tk_since tr) (discarded st);
    td_errors : counted Undecoded (tk_done tr) (errors st);
    td_raws : latest_frames (tk_done tr) (raws st);
    td_werr : forall k, In k (with_error st) -> failed (tk_done tr) k;
    td_row : 0 <= first_row st;
    td_good : Forall good (tk_done tr) /\ Forall good (tk_pending tr) }.

  Definition untouched (st : state) := (names st, formatted st, raws st, msigs st, fsigs st, with_error st, playing st, compiled st, queue st, counters st, basetime st).
  Definition edited (st : state) (tr : track) (st' : state) (tr' : track) : Prop :=
    untouched st' = untouched st /\ (0 <= first_row st -> 0 <= first_row st') /\ input_ok tr' st' /\ tk_search tr' = compile (whole tr') /\
    tk_playing tr' = tk_playing tr /\ tk_pending tr' = tk_pending tr /\ tk_done tr' = tk_done tr /\ tk_since tr' = tk_since tr.
  Lemma first_before (a b : chars) : firstn (List.length a) (a ++ b) = a.
  Proof. rewrite firstn_app, Nat.sub_diag, firstn_all. cbn. apply app_nil_r. Qed.
  Lemma skip_before (a b : chars) n : skipn (List.length a + n) (a ++ b) = skipn n b.
  Proof. rewrite skipn_app. rewrite skipn_all2 by lia. cbn. f_equal. lia. Qed.
  Lemma skip_before0 (a b : chars) : skipn (List.length a) (a ++ b) = b.
  Proof. rewrite <- (Nat.add_0_r (List.length a)), skip_before. reflexivity. Qed.

  Section Edit.
    Context (st : state) (tr : track) (a b old : chars).
    Context (ED : tk_edit tr = Some (a, b, old)) (SF : show_filter st = true) (TX : filter_text st = a ++ b) (CU : cursor st = List.length a) (OF : old_filter st = Some old).
    Ltac edit_tac := split; [reflexivity|]; split; [auto|]; split; [|cbn; auto 10].
    Lemma ed_enter : edited st tr (set_input st false (filter_text st) (cursor st) (old_filter st)) (with_edit compile tr None (a ++ b)).
    Proof. edit_tac. split; [reflexivity|]. split; [exact TX|]. discriminate. Qed.
    Lemma ed_escape : edited st tr (set_input st false old (cursor st) None) (with_edit compile tr None old).
    Proof. edit_tac. split; [reflexivity|]. split; [reflexivity|]. discriminate. Qed.
    Lemma ed_same st' : untouched st' = untouched st -> (0 <= first_row st -> 0 <= first_row st') -> (show_filter st', filter_text st', cursor st', old_filter st') = (show_filter st, filter_text st, cursor st, old_filter st) ->
      edited st tr st' (with_edit compile tr (Some (a, b, old)) (tk_text tr)).
    Proof.
      intros U F I. split; [exact U|]. split; [exact F|]. split; [|cbn; auto 10]. injection I as I1 I2 I3 I4. split; [cbn; congruence|]. split; [cbn; congruence|]. cbn. intros ? ? ? [= <- <- <-]. rewrite I3, I4. auto.
    Qed.
    Lemma ed_set x y : edited st tr (set_input st true (x ++ y) (List.length x) (old_filter st)) (with_edit compile tr (Some (x, y, old)) (tk_text tr)).
    Proof. edit_tac. split; [reflexivity|]. split; [reflexivity|]. cbn. intros ? ? ? [= <- <- <-]. auto. Qed.
    Lemma ed_back : edited st tr (if Nat.ltb 0 (cursor st) then set_input st true (firstn (cursor st - 1) (filter_text st) ++ skipn (cursor st) (filter_text st)) (cursor st - 1) (old_filter st) else st)
      (with_edit compile tr (Some (removelast a, b, old)) (tk_text tr)).
    Proof.
      rewrite CU, TX. destruct (Nat.ltb_spec 0 (List.length a)) as [L|L].
      - destruct (exists_last (l := a)) as (a' & c & A); [intros X; rewrite X in L; cbn in L; lia|]. rewrite A, removelast_last, skip_before0, app_length. cbn [List.length]. replace (List.length a' + 1 - 1)%nat with (List.length a') by lia.
        rewrite <- app_assoc, first_before. apply ed_set.
      - assert (A : a = []) by (destruct a; [reflexivity|cbn in L; lia]). pose proof (ed_same st eq_refl (fun x => x) eq_refl) as X. rewrite A in *. exact X.
    Qed.
    Lemma ed_delete : edited st tr (if Nat.ltb (cursor st) (List.length (filter_text st)) then set_input st true (firstn (cursor st) (filter_text st) ++ skipn (cursor st + 1) (filter_text st)) (cursor st) (old_filter st) else st)
      (with_edit compile tr (Some (a, tl b, old)) (tk_text tr)).
    Proof.
      rewrite CU, TX, app_length, first_before, skip_before. destruct (Nat.ltb_spec (List.length a) (List.length a + List.length b)) as [L|L].
      - replace (skipn 1 b) with (tl b) by (now destruct b). apply ed_set.
      - assert (B : b = []) by (destruct b; [reflexivity|cbn in L; lia]). pose proof (ed_same st eq_refl (fun x => x) eq_refl) as X. rewrite B in *. exact X.
    Qed.
    Lemma ed_left : edited st tr (if Nat.ltb 0 (cursor st) then set_input st true (filter_text st) (cursor st - 1) (old_filter st) else st)
      (with_edit compile tr (Some (match rev a with [] => (a, b, old) | c :: _ => (removelast a, c :: b, old) end)) (tk_text tr)).
    Proof.
      rewrite CU, TX. destruct (Nat.ltb_spec 0 (List.length a)) as [L|L].
      - destruct (exists_last (l := a)) as (a' & c & A); [intros X; rewrite X in L; cbn in L; lia|]. rewrite A, removelast_last, rev_app_distr, app_length. cbn [List.length rev app]. replace (List.length a' + 1 - 1)%nat with (List.length a') by lia.
        rewrite <- app_assoc. apply (ed_set a' (c :: b)).
      - assert (A : a = []) by (destruct a; [reflexivity|cbn in L; lia]). pose proof (ed_same st eq_refl (fun x => x) eq_refl) as X. rewrite A in *. exact X.
    Qed.
    Lemma ed_right : edited st tr (if Nat.ltb (cursor st) (List.length (filter_text st)) then set_input st true (filter_text st) (cursor st + 1) (old_filter st) else st)
      (with_edit compile tr (Some (match b with [] => (a, b, old) | c :: r => (a ++ [c], r, old) end)) (tk_text tr)).
    Proof.
      rewrite CU, TX, app_length. destruct (Nat.ltb_spec (List.length a) (List.length a + List.length b)) as [L|L].
      - destruct b as [|c r]; [cbn in L; lia|]. pose proof (ed_set (a ++ [c]) r) as X. rewrite app_length in X. cbn [List.length] in X. rewrite <- app_assoc in X. exact X.
      - assert (B : b = []) by (destruct b; [reflexivity|cbn in L; lia]). pose proof (ed_same st eq_refl (fun x => x) eq_refl) as X. rewrite B in *. exact X.
    Qed.
    Lemma ed_char c : edited st tr (set_input st true (firstn (cursor st) (filter_text st) ++ c :: skipn (cursor st) (filter_text st)) (cursor st + 1) (old_filter st))
      (with_edit compile tr (Some (a ++ [c], b, old)) (tk_text tr)).
    Proof.
      rewrite CU, TX, first_before, skip_before0. pose proof (ed_set (a ++ [c]) b) as X. rewrite app_length in X. cbn [List.length] in X. rewrite <- app_assoc in X. exact X.
    Qed.
    Lemma ed_move k : edited st tr (move st k) (with_edit compile tr (Some (a, b, old)) (tk_text tr)).
    Proof. apply ed_same; [reflexivity| |reflexivity]. cbn. intros F. destruct k; try destruct (Z.ltb_spec 0 (first_row st)); try destruct (Z.ltb_spec (Z.of_nat (rows st)) (first_row st)); lia. Qed.
    Lemma edit_ok k : exists st' tr', edit_filter st k = Ok st' /\ key_meaning compile tr k = Some tr' /\ edited st tr st' tr'.
    Proof.
      destruct k as [c| | | | | | | | |]; unfold key_meaning, edit_filter; rewrite ED.
      - destruct c as [[] [] [] [] [] [] [] []]; cbn zeta;
          first [eexists _, _; split; [reflexivity|]; split; [reflexivity|]; first [exact (ed_char _)|exact ed_enter|exact ed_back]|rewrite OF; eexists _, _; split; [reflexivity|]; split; [reflexivity|]; exact ed_escape].
      - eexists _, _. split; [reflexivity|]. split; [reflexivity|]. apply ed_move.
      - eexists _, _. split; [reflexivity|]. split; [reflexivity|]. apply ed_move.
      - eexists _, _. split; [reflexivity|]. split; [reflexivity|]. apply ed_move.
      - eexists _, _. split; [reflexivity|]. split; [reflexivity|]. apply ed_move.
      - eexists _, _. split; [reflexivity|]. split; [reflexivity|]. exact ed_left.
      - eexists _, _. split; [reflexivity|]. split; [reflexivity|]. exact ed_right.
      - eexists _, _. split; [reflexivity|]. split; [reflexivity|]. exact ed_back.
      - eexists _, _. split; [reflexivity|]. split; [reflexivity|]. exact ed_delete.
      - eexists _, _. split; [reflexivity|]. split; [reflexivity|]. apply ed_same; auto.
    Qed.
  End Edit.

  Lemma latest_in l k f : latest l k f -> In f l.
  Proof. intros (a & b & p & ps & -> & _). apply in_or_app. right. now left. Qed.
  Lemma raws_good tr st k f : tracked tr st -> In (k, f) (raws st) -> tget (raws st) k = Some f /\ bytes_ok (rm_data f) /\ exists p ps, reports f Shown ((k, p) :: ps).
  Proof.
    intros T I. destruct (td_raws _ _ T) as [ND L]. assert (G : tget (raws st) k = Some f) by (now apply (in_get _ chars_spec)). split; [exact G|]. apply L in G.
    pose proof (latest_in _ _ _ G) as J. destruct (td_good _ _ T) as [GD _]. rewrite Forall_forall in GD. split; [now apply GD|]. destruct G as (a & b & p & ps & _ & R & _). eauto.
  Qed.
  Lemma filter_key_ok tr st k a b old : tracked tr st -> tk_edit tr = Some (a, b, old) ->
    exists st' tr', filter_key st k = inl st' /\ key_meaning compile tr k = Some tr' /\ tracked tr' st' /\
      shown_from (tk_search tr') (with_error st) (map snd (raws st)) st' /\ raws st' = raws st /\ rows st' = rows st /\ modified st' = true.
  Proof.
    intros T ED. destruct (td_input _ _ T) as (I1 & I2 & I3). destruct (I3 a b old ED) as [I4 I5]. rewrite ED in I1. unfold whole in I2. rewrite ED in I2.
    destruct (edit_ok st tr a b old ED I1 I2 I4 I5 k) as (st1 & tr' & X & K & U & FR & IN & SE & P1 & P2 & P3 & P4). unfold Monitor.filter_key. rewrite X.
    set (st2 := set_formatted _ _). unfold untouched, counters in U.
    assert (U1 : raws st1 = raws st) by congruence. assert (U2 : with_error st1 = with_error st) by congruence. assert (U3 : playing st1 = playing st) by congruence. assert (U4 : queue st1 = queue st) by congruence.
    assert (U5 : received st1 = received st) by congruence. assert (U6 : discarded st1 = discarded st) by congruence. assert (U7 : errors st1 = errors st) by congruence. assert (U8 : basetime st1 = basetime st) by congruence. clear U.
    assert (S2 : sound st2) by (constructor; cbn; [constructor|intros ? []|intros x Y; contradiction]).
    destruct (reformat_ok (raws st1) st2 S2) as (st3 & RF & S3 & X3 & C3 & R3 & K3 & B3 & h & LG & SH).
    { intros x g I. change (raws st2) with (raws st1). rewrite U1 in *. now apply raws_good with tr. }
    change (raws st2) with (raws st1). rewrite RF. exists (set_modified st3 true), tr'. split; [reflexivity|]. split; [exact K|].
    unfold core, counters in C3, K3. cbn [playing modified show_filter filter_text cursor old_filter compiled queue first_row rows received discarded errors raws st2 set_formatted set_msigs set_names set_compiled] in C3, K3, R3.
    assert (CO : compiled st3 = tk_search tr'). { rewrite SE. destruct IN as (_ & IT & _). rewrite <- IT. congruence. }
    assert (RO : rows st1 = rows st).
    { clear - X. unfold edit_filter in X. destruct k as [c| | | | | | | | |]; try (apply Ok_inj in X; subst st1; try destruct (Nat.ltb _ _); reflexivity).
      destruct c as [[] [] [] [] [] [] [] []]; cbn zeta in X; first [apply Ok_inj in X; subst st1; try destruct (Nat.ltb _ _); reflexivity|destruct (old_filter st); [apply Ok_inj in X; subst st1; reflexivity|discriminate]]. }
    split; [|split; [|split; [cbn; congruence|split; [cbn; congruence|reflexivity]]]].
    - constructor.
      + now apply (sound_rest st3).
      + destruct IN as (IN1 & IN2 & IN3). split; [|split]; cbn [show_filter filter_text cursor old_filter set_modified]; [congruence|congruence|]. intros x y z XY. destruct (IN3 x y z XY). split; congruence.
      + exact CO.
      + cbn. rewrite P1, <- (td_playing _ _ T). congruence.
      + cbn. rewrite P2, <- (td_queue _ _ T). congruence.
      + cbn. rewrite P4, <- (td_received _ _ T). congruence.
      + cbn. rewrite P4. replace (discarded st3) with (discarded st) by congruence. apply (td_discarded _ _ T).
      + cbn. rewrite P3. replace (errors st3) with (errors st) by congruence. apply (td_errors _ _ T).
      + cbn. rewrite P3, R3, U1. apply (td_raws _ _ T).
      + cbn. rewrite P3. intros x I. apply X3 in I. cbn in I. rewrite U2 in I. now apply (td_werr _ _ T).
      + cbn. replace (first_row st3) with (first_row st1) by congruence. apply FR, (td_row _ _ T).
      + rewrite P2, P3. apply (td_good _ _ T).
    - rewrite <- U1. split; [cbn [basetime set_modified]; rewrite B3; now destruct (raws st1)|]. exists h. split.
      { unfold base_of. cbn [basetime set_modified]. rewrite B3. destruct (raws st1); [|exact LG]. cbn [map] in *. destruct LG as (hs & LF & ->). inversion LF. apply log_nil. }
      apply (shows_rest _ _ _ _ _ _ _ st3); auto. apply (SH (tk_search tr') (with_error st) []).
      + constructor; cbn; auto; try (now intros; constructor).
        * rewrite SE. destruct IN as (_ & IT & _). now rewrite IT.
        * intros x. split; [intros []|]. intros [(? & ? & ? & [])|[(? & ? & [])|[(? & ? & ? & [] & _)|(? & [=] & _)]]].
        * intros x ks [=].
        * intros x. rewrite U2. split; [auto|]. intros [[_ Y]|(? & ? & ? & r & Y)]; [exact Y|now destruct r].
      + apply (no_clash float_text raw_initial db _ WN). apply (log_origin float_text raw_initial explain db _ _ _ LG). apply Forall_forall. intros f J. apply in_map_iff in J as ([x g] & <- & J). rewrite U1 in J. now apply (raws_good tr st x g T J).
  Qed.

  (** Keys outside of the filter *)
  Definition display (st : state) := (names st, formatted st, msigs st, fsigs st, with_error st, compiled st, basetime st).
  Definition quiet (k : keypress) : Prop := k <> Char "f" /\ k <> Char "/" /\ k <> Char "r".
  Lemma menu_same tr st st' : tracked tr st -> untouched st' = untouched st -> (0 <= first_row st -> 0 <= first_row st') ->
    (show_filter st', filter_text st', cursor st', old_filter st') = (show_filter st, filter_text st, cursor st, old_filter st) -> tracked tr st' /\ display st' = display st.
  Proof.
    intros T U F I. unfold untouched, counters in U. injection I as J1 J2 J3 J4. split; [|unfold display; congruence]. destruct T as [[T1a T1b T1c] (T2a & T2b & T2c) T3 T4 T5 T6 T7 T8 T9 TW T10 T11]. constructor; auto.
    - assert (A : names st' = names st) by congruence. assert (B : formatted st' = formatted st) by congruence. assert (C : msigs st' = msigs st) by congruence. assert (D : fsigs st' = fsigs st) by congruence. apply (sound_rest st); auto. now constructor.
    - split; [congruence|]. split; [congruence|]. intros a b o X. rewrite J3, J4. now apply T2c with b.
    - congruence.
    - congruence.
    - congruence.
    - congruence.
    - now replace (discarded st') with (discarded st) by congruence.
    - now replace (errors st') with (errors st) by congruence.
    - now replace (raws st') with (raws st) by congruence.
    - now replace (with_error st') with (with_error st) by congruence.
  Qed.
  Definition menu_good (tr : track) (st : state) (k : keypress) (o : option track) (r : state + stop) : Prop :=
    match o with
    | None => r = inr Quit
    | Some tr' => exists st', r = inl st' /\ tracked tr' st' /\ rows st' = rows st /\ (quiet k -> tk_edit tr' = None /\ tk_done tr' = tk_done tr /\ display st' = display st)
    end.
  Lemma menu_key_ok tr st k : tracked tr st -> tk_edit tr = None -> menu_good tr st k (key_meaning compile tr k) (menu_key st k).
  Proof.
    intros T ED.
    assert (SAME : menu_good tr st k (Some tr) (inl st)) by (exists st; auto 10).
    assert (MV : forall m, menu_good tr st k (Some tr) (inl (move st m))).
    { intros m. exists (move st m). destruct (menu_same tr st (move st m) T) as [T' D]; [reflexivity| |reflexivity|auto 10]. cbn. intros F. destruct m; try destruct (Z.ltb_spec 0 (first_row st)); try destruct (Z.ltb_spec (Z.of_nat (rows st)) (first_row st)); lia. }
    assert (PL : menu_good tr st k (Some (mkTrack None (tk_text tr) (tk_search tr) (negb (tk_playing tr)) (tk_pending tr) (tk_done tr) (tk_since tr))) (inl (set_playing st (negb (playing st))))).
    { eexists. split; [reflexivity|]. split; [|split; [reflexivity|auto]]. destruct T as [T1 T2 T3 T4 T5 T6 T7 T8 T9 TW T10 T11]. unfold input_ok, whole in T2. rewrite ED in T2. constructor; auto; [now apply (sound_rest st)|]. cbn. now rewrite T4. }
    assert (RS : k = Char "r" -> menu_good tr st k (Some (mkTrack None [] None true [] (tk_done tr) []))
      (inl (set_queue (set_modified (set_compiled (set_input (set_basetime (set_counters (set_playing (set_formatted (set_names st []) []) true) 0 0 (errors st)) None) (show_filter st) [] (cursor st) (old_filter st)) None) true) []))).
    { intros K. eexists. split; [reflexivity|]. split; [|split; [reflexivity|intros (_ & _ & Q); congruence]]. destruct T as [[T1a T1b T1c] (T2a & T2b & T2c) T3 T4 T5 T6 T7 T8 T9 TW T10 T11]. rewrite ED in T2a. constructor; auto.
      - constructor; cbn; [constructor|intros ? []|exact T1c].
      - split; [exact T2a|]. split; [reflexivity|]. discriminate.
      - exists []. split; [constructor|reflexivity].
      - cbn. split; [apply T11|constructor]. }
    assert (FI : k = Char "f" \/ k = Char "/" -> menu_good tr st k (Some (mkTrack (Some (tk_text tr, [], tk_text tr)) (tk_text tr) (tk_search tr) (tk_playing tr) (tk_pending tr) (tk_done tr) (tk_since tr)))
      (inl (set_modified (set_input st true (filter_text st) (List.length (filter_text st)) (Some (filter_text st))) true))).
    { intros K. eexists. split; [reflexivity|]. split; [|split; [reflexivity|intros (Q & Q' & _); destruct K; congruence]]. destruct T as [T1 (T2a & T2b & T2c) T3 T4 T5 T6 T7 T8 T9 TW T10 T11]. unfold whole in T2b. rewrite ED in T2b. constructor; auto; [now apply (sound_rest st)|].
      split; [reflexivity|]. split; [cbn; now rewrite app_nil_r|]. cbn. intros ? ? ? [= <- <- <-]. now rewrite T2b. }
    destruct k as [c| | | | | | | | |]; unfold key_meaning, menu_key; rewrite ED; auto.
    destruct c as [[] [] [] [] [] [] [] []]; first [exact SAME|exact PL|reflexivity|exact (RS eq_refl)|exact (FI (or_introl eq_refl))|exact (FI (or_intror eq_refl))].
  Qed.
  Lemma keys_ok l : forall tr st, tracked tr st ->
    match keys_meaning compile tr l with
    | None => keys st l = inr Quit
    | Some tr' => exists st', keys st l = inl st' /\ tracked tr' st' /\ rows st' = rows st /\ (tk_edit tr = None -> Forall quiet l -> tk_edit tr' = None /\ tk_done tr' = tk_done tr /\ display st' = display st)
    end.
  Proof.
    induction l as [|k l IH]; intros tr st T; cbn [keys_meaning Monitor.keys]; [exists st; auto 10|].
    destruct (td_input _ _ T) as (SF & _). rewrite SF. destruct (tk_edit tr) as [[[a b] old]|] eqn:ED.
    - destruct (filter_key_ok tr st k a b old T ED) as (st' & tr' & F & K & T' & _ & _ & RO & _). rewrite F, K. specialize (IH tr' st' T'). destruct (keys_meaning compile tr' l) as [tr2|]; [|exact IH].
      destruct IH as (st2 & K2 & T2 & R2 & _). exists st2. split; [exact K2|]. split; [exact T2|]. split; [congruence|]. discriminate.
    - pose proof (menu_key_ok tr st k T ED) as M. destruct (key_meaning compile tr k) as [tr'|]; cbn [menu_good] in M; [|now rewrite M].
      destruct M as (st' & M & T' & RO & Q). rewrite M. specialize (IH tr' st' T'). destruct (keys_meaning compile tr' l) as [tr2|]; [|exact IH].
      destruct IH as (st2 & K2 & T2 & R2 & Q2). exists st2. split; [exact K2|]. split; [exact T2|]. split; [congruence|]. intros _ QL. apply Forall_cons_iff in QL as [QK QL]. destruct (Q QK) as (E1 & D1 & S1). destruct (Q2 E1 QL) as (E2 & D2 & S2). repeat split; congruence.
  Qed.

  (** * The screen *)
  Definition window (n : nat) (all ls : list chars) : Prop := exists top, ls = firstn n (skipn top all) /\ (top = O \/ top + n <= List.length all)%nat.
  Definition input_line (tr : track) : option (chars * ascii * chars) := match tk_edit tr with Some (a, b, _) => Some (a, hd " "%char b, tl b) | None => None end.
  Lemma gather_ok st l : (forall k, In k l -> tget (formatted st) k <> None) -> exists bs, gather_lines st l = Ok (List.concat bs) /\ Forall2 (fun k b => tget (formatted st) k = Some b) l bs.
  Proof.
    induction l as [|k l IH]; intros H; cbn [gather_lines]; [exists []; split; [reflexivity|constructor]|]. destruct IH as (bs & G & F); [intros x I; apply H; now right|].
    destruct (tget (formatted st) k) as [b|] eqn:B; [|exfalso; apply (H k); [now left|exact B]]. rewrite G. exists (b :: bs). split; [reflexivity|]. constructor; auto.
  Qed.
  Lemma redraw_ok tr st : tracked tr st -> exists st' s bs, redraw st = Ok (st', s) /\ tracked tr st' /\ display st' = display st /\ rows st' = rows st /\
    sc_stats s = (received st, discarded st, errors st, whole tr) /\ sc_input s = input_line tr /\ Forall2 (fun k b => tget (formatted st) k = Some b) (names st) bs /\ window (rows st) (List.concat bs) (sc_lines s).
  Proof.
    intros T. unfold redraw. destruct (gather_ok st (names st)) as (bs & G & F); [apply (td_sound _ _ T)|]. rewrite G. cbn [bind]. set (n := Z.of_nat (rows st)).
    set (st1 := if zlen (List.concat bs) <? first_row st + n then _ else st). pose proof (td_row _ _ T) as FR.
    assert (S1 : tracked tr st1 /\ display st1 = display st).
    { unfold st1. destruct (zlen (List.concat bs) <? first_row st + n); [|auto]. apply (menu_same tr st); auto. cbn. lia. }
    assert (FX : (show_filter st1, filter_text st1, cursor st1, received st1, discarded st1, errors st1) = (show_filter st, filter_text st, cursor st, received st, discarded st, errors st)) by (unfold st1; destruct (_ <? _); reflexivity).
    injection FX as F1 F2 F3 F4 F5 F6. destruct (td_input _ _ T) as (I1 & I2 & I3).
    exists st1. eexists _, bs. split; [reflexivity|]. split; [apply S1|]. split; [apply S1|]. split; [unfold st1; now destruct (_ <? _)|]. cbn [sc_stats sc_input sc_lines]. split; [congruence|]. split.
    - rewrite F1, F2, F3, I1, I2. unfold input_line, whole. destruct (tk_edit tr) as [[[a b] old]|]; [|reflexivity]. destruct (I3 a b old eq_refl) as [-> _]. f_equal. rewrite first_before, skip_before, app_nth2, Nat.sub_diag by lia. destruct b; reflexivity.
    - split; [exact F|]. unfold slice. replace (Z.to_nat (first_row st1 + n - first_row st1)) with (rows st) by lia. exists (Z.to_nat (first_row st1)). split; [reflexivity|].
      unfold st1, zlen. destruct (Z.ltb_spec (Z.of_nat (List.length (List.concat bs))) (first_row st + n)); cbn [first_row set_first_row]; lia.
  Qed.

  Lemma shown_display search E fs st st' : shown_from search E fs st -> display st' = display st -> shown_from search E fs st'.
  Proof.
    intros [B (h & L & S)] X. unfold display in X. assert (BT : basetime st' = basetime st) by congruence. split; [now rewrite BT|]. exists h. unfold base_of in *. rewrite BT. split; [exact L|].
    apply (shows_rest _ _ _ _ _ _ _ st); auto; congruence.
  Qed.
  Definition based (b : option Z) (l : list raw_message) : option Z := match b, l with Some x, _ => Some x | None, f :: _ => Some (rm_time f) | None, [] => None end.
  Lemma update_ok tr st r : tracked tr st -> exists st' b, update st r = Ok (st', b) /\ tracked (taken tr) st' /\
    (tk_playing tr = true /\ tk_pending tr <> [] \/ r <> None \/ modified st = true -> b = true) /\
    rows st' = (match r with Some n => n | None => rows st end) /\
    exists d, tk_done (taken tr) = tk_done tr ++ d /\ basetime st' = based (basetime st) d /\
      forall search E fs, Forall good fs -> shown_from search E fs st -> shown_from search E (fs ++ d) st'.
  Proof.
    intros T. unfold Monitor.update.
    assert (exists st1 m1, (if playing st then let* st' := process (set_queue st []) (queue st) in Ok (st', match queue st with [] => false | _ => true end) else Ok (st, false)) = Ok (st1, m1) /\
      tracked (taken tr) st1 /\ (tk_playing tr = true /\ tk_pending tr <> [] -> m1 = true) /\ rows st1 = rows st /\ modified st1 = modified st /\
      exists d, tk_done (taken tr) = tk_done tr ++ d /\ basetime st1 = based (basetime st) d /\
      forall search E fs, Forall good fs -> shown_from search E fs st -> shown_from search E (fs ++ d) st1) as (st1 & m1 & U & T1 & M1 & R1 & MO & d & DD & BD & SH).
    { rewrite (td_playing _ _ T). unfold taken. destruct (tk_playing tr) eqn:PL.
      2:{ exists st, false. split; [reflexivity|]. split; [exact T|]. split; [intros [[=] _]|]. do 2 (split; [reflexivity|]). exists []. rewrite app_nil_r. split; [reflexivity|]. split; [now destruct (basetime st)|]. intros. now rewrite app_nil_r. }
      destruct T as [T1 T2 T3 T4 T5 T6 T7 T8 T9 TW T10 [T11 T12]]. rewrite T5.
      destruct (process_ok (tk_pending tr) (set_queue st []) (tk_done tr) (tk_since tr)) as (st' & P & Q1 & QE & Q2 & Q3 & Q4 & Q5 & Q6 & Q7 & h' & LG & SHH); auto; [now apply (sound_rest st)|].
      rewrite P. cbn [bind]. eexists st', _. split; [reflexivity|]. unfold core in Q2. cbn [playing modified show_filter filter_text cursor old_filter compiled queue first_row rows set_queue] in Q2. split; [|split; [|split; [|split]]].
      - constructor; cbn [tk_edit tk_text tk_search tk_playing tk_pending tk_done tk_since]; auto.
        + destruct T2 as (X1 & X2 & X3). split; [cbn [tk_edit]; congruence|]. split; [unfold whole in *; cbn [tk_edit tk_text]; congruence|]. intros a b o X. cbn [tk_edit] in X. destruct (X3 a b o X). split; congruence.
        + congruence.
        + congruence.
        + congruence.
        + replace (first_row st') with (first_row st) by congruence. exact T10.
        + split; [apply Forall_app; auto|constructor].
      - intros [_ N]. destruct (tk_pending tr); [contradiction|reflexivity].
      - congruence.
      - congruence.
      - exists (tk_pending tr). split; [reflexivity|]. unfold first_base in *. cbn [basetime set_queue] in *.
        assert (BD : basetime st' = based (basetime st) (tk_pending tr)) by (rewrite Q7; destruct (basetime st), (tk_pending tr); reflexivity). split; [exact BD|].
        intros search E fs GF [B (h & L & S)]. split.
        { rewrite BD. destruct (basetime st); [discriminate|]. destruct (tk_pending tr); [now rewrite B|discriminate]. }
        assert (LL : log (base_of st') (fs ++ tk_pending tr) (h ++ h')).
        { unfold base_of in *. rewrite BD. destruct (basetime st) as [x|].
          - exact (log_app _ _ _ _ _ L LG).
          - rewrite (B eq_refl) in *. destruct L as (hs & LF & ->). inversion LF. cbn [app List.concat based]. destruct (tk_pending tr); exact LG. }
        exists (h ++ h'). split; [exact LL|]. apply SHH; [now apply (shows_rest _ _ _ _ _ _ _ st)|]. apply (no_clash float_text raw_initial db _ WN). apply (log_origin float_text raw_initial explain db _ _ _ LL).
        apply Forall_app. split; eapply Forall_impl; try eassumption; now intros f [Y _]. }
    rewrite U. cbn [bind]. set (st2 := if modified st1 then set_modified st1 false else st1).
    assert (S2 : forall n, tracked (taken tr) (set_rows st2 n) /\ display (set_rows st2 n) = display st1) by (intros n; apply (menu_same _ st1); auto; unfold st2; destruct (modified st1); auto).
    assert (S3 : tracked (taken tr) st2 /\ display st2 = display st1) by (apply (menu_same _ st1); auto; unfold st2; destruct (modified st1); auto).
    assert (BT : basetime st2 = basetime st1) by (unfold st2; now destruct (modified st1)).
    destruct r as [n|].
    - exists (set_rows st2 n), true. split; [reflexivity|]. split; [apply S2|]. split; [auto|]. split; [reflexivity|]. exists d. split; [exact DD|]. split; [cbn; congruence|]. intros search E fs GF X. apply (shown_display search E _ st1); auto. apply S2.
    - exists st2, (m1 || modified st1). split; [reflexivity|]. split; [apply S3|]. split; [intros [X|[X|X]]; [now rewrite (M1 X)|congruence|rewrite MO, X; apply orb_true_r]|]. split; [unfold st2; destruct (modified st1); exact R1|].
      exists d. split; [exact DD|]. split; [congruence|]. intros search E fs GF X. apply (shown_display search E _ st1); auto. apply S3.
  Qed.

  (** * Screens *)
  (** A screen shows the frames [fs]: the counters, the input line, and [n] of the lines of the listed entries, in alphabetical order *)
  Definition is_screen (search : option (chars -> bool)) (E : list chars) (base : Z) (fs : list raw_message) (n : nat) (s : screen) : Prop :=
    exists h ns bs, log base fs h /\ StronglySorted before ns /\ (forall k, In k ns <-> listed search E k (own k h)) /\
      Forall2 (fun k b => entry_lines float_text stamp unit_of single search E k (own k h) = Some b) ns bs /\ window n (List.concat bs) (sc_lines s).
  Definition is_status (tr : track) (n : nat) (s : screen) : Prop :=
    (exists u e, counted Unknown (tk_since tr) u /\ counted Undecoded (tk_done tr) e /\ sc_stats s = (zlen (tk_since tr), u, e, whole tr)) /\
    sc_input s = input_line tr /\ (List.length (sc_lines s) <= n)%nat.
  (** The rows of the terminal *)
  Definition height (n : nat) (l : list event) : nat := fold_left (fun n e => match e with Tick (Some m) _ => m | _ => n end) l n.
  (** Keys that leave the listed entries alone *)
  Definition still (e : event) : Prop := match e with Frame _ => True | Tick _ ks => Forall quiet ks end.
  Definition idle (e : event) : Prop := match e with Frame _ => True | Tick _ ks => ks = [] end.
  Definition calm (tr : track) (l : list event) : Prop := Forall idle l \/ tk_edit tr = None /\ Forall still l.

  Lemma tick_ok tr st r : tracked tr st -> exists st1 o,
    (forall ks, step st (Tick r ks) = match keys st1 ks with inl st' => inl (st', o) | inr x => inr x end) /\
    tracked (taken tr) st1 /\ rows st1 = (match r with Some n => n | None => rows st end) /\
    (tk_playing tr = true /\ tk_pending tr <> [] \/ r <> None \/ modified st = true -> o <> None) /\
    (forall s, o = Some s -> is_status (taken tr) (rows st1) s /\ forall search E fs, shown_from search E fs st1 -> is_screen search E (base_of st1) fs (rows st1) s) /\
    exists d, tk_done (taken tr) = tk_done tr ++ d /\ basetime st1 = based (basetime st) d /\
      forall search E fs, Forall good fs -> shown_from search E fs st -> shown_from search E (fs ++ d) st1.
  Proof.
    intros T. destruct (update_ok tr st r T) as (st1 & b & U & T1 & DR & RO & d & DD & BD & SH).
    destruct (redraw_ok (taken tr) st1 T1) as (st2 & s & bs & RD & T2 & DI & R2 & SS & SI & FB & WI).
    cbn [Monitor.step]. rewrite U. destruct b.
    - rewrite RD. cbn [bind]. exists st2, (Some s). split; [reflexivity|]. split; [exact T2|]. split; [congruence|]. split; [discriminate|].
      assert (BT : basetime st2 = basetime st1) by (unfold display in DI; congruence). split.
      + intros s' [= <-]. split.
        * split; [|split; [exact SI|]].
          -- eexists _, _. split; [exact (td_discarded _ _ T1)|]. split; [exact (td_errors _ _ T1)|]. rewrite SS, (td_received _ _ T1). reflexivity.
          -- destruct WI as (top & -> & _). rewrite R2. apply firstn_le_length.
        * intros search E fs X. apply (shown_display _ _ _ _ st1) in X; [|now symmetry]. destruct X as [_ (h & LG & SHH)]. exists h, (names st1), bs. replace (base_of st2) with (base_of st1) by (unfold base_of; now rewrite BT). rewrite R2.
          split; [exact LG|]. split; [apply SHH|]. split; [apply SHH|]. split; [|exact WI]. clear - FB SHH. induction FB as [|k b l bs F FB IH]; constructor; [|exact IH]. rewrite <- F. symmetry. apply SHH.
      + exists d. split; [exact DD|]. split; [congruence|]. intros search E fs GF X. apply (shown_display _ _ _ st1); auto.
    - cbn [bind]. exists st1, None. split; [reflexivity|]. split; [exact T1|]. split; [exact RO|]. split; [intros X _; specialize (DR X); discriminate|]. split; [discriminate|]. exists d. auto.
  Qed.
  Lemma taken_edit tr : tk_edit (taken tr) = tk_edit tr.
  Proof. unfold taken. now destruct (tk_playing tr). Qed.
  Lemma run_app l1 : forall l2 st, run st (l1 ++ l2) = match run st l1 with inr x => inr x | inl (st1, s1) => match run st1 l2 with inr x => inr x | inl (st2, s2) => inl (st2, s1 ++ s2) end end.
  Proof.
    induction l1 as [|e l1 IH]; intros l2 st; cbn [app Monitor.run]; [destruct (run st l2) as [[? ?]|]; reflexivity|].
    destruct (step st e) as [[st1 o]|x]; [|reflexivity]. rewrite IH. destruct (run st1 l1) as [[st2 s1]|x]; [|reflexivity]. destruct (run st2 l2) as [[st3 s2]|x]; [|reflexivity]. now destruct o.
  Qed.
  Lemma meaning_app l1 : forall l2 tr, meaning compile tr (l1 ++ l2) = match meaning compile tr l1 with Some t => meaning compile t l2 | None => None end.
  Proof. induction l1 as [|[f|r ks] l1 IH]; intros l2 tr; cbn [app meaning]; [reflexivity|apply IH|]. destruct (keys_meaning compile (taken tr) ks); [apply IH|reflexivity]. Qed.
  Lemma run_ok l : forall tr st, tracked tr st -> Forall good (frames_of l) ->
    match meaning compile tr l with
    | None => run st l = inr Quit
    | Some tr' => exists st' ss, run st l = inl (st', ss) /\ tracked tr' st' /\ rows st' = height (rows st) l /\
        (calm tr l -> tk_edit tr' = tk_edit tr /\ exists d, tk_done tr' = tk_done tr ++ d /\ basetime st' = based (basetime st) d /\
           forall search E fs, Forall good fs -> shown_from search E fs st -> shown_from search E (fs ++ d) st')
    end.
  Proof.
    induction l as [|e l IH]; intros tr st T G; cbn [meaning].
    - exists st, []. split; [reflexivity|]. split; [exact T|]. split; [reflexivity|]. intros _. split; [reflexivity|]. exists []. rewrite app_nil_r. split; [reflexivity|]. split; [now destruct (basetime st)|]. intros. now rewrite app_nil_r.
    - destruct e as [f|r ks].
      + cbn [frames_of flat_map app] in G. apply Forall_cons_iff in G as [GF G]. set (tr1 := mkTrack _ _ _ _ (tk_pending tr ++ [f]) _ _).
        assert (T1 : tracked tr1 (set_queue st (queue st ++ [f]))).
        { destruct T as [T1 T2 T3 T4 T5 T6 T7 T8 T9 TW T10 [T11 T12]]. constructor; auto; [now apply (sound_rest st)|cbn; congruence|]. split; [exact T11|]. apply Forall_app. auto. }
        specialize (IH tr1 _ T1 G). cbn [Monitor.run Monitor.step]. destruct (meaning compile tr1 l) as [tr'|]; [|now rewrite IH].
        destruct IH as (st' & ss & RN & T' & RO & X). rewrite RN. exists st', ss. split; [reflexivity|]. split; [exact T'|]. split; [exact RO|].
        intros C. assert (C1 : calm tr1 l) by (destruct C as [C|[C1 C2]]; [left; now apply Forall_inv_tail in C|right; split; [exact C1|now apply Forall_inv_tail in C2]]).
        destruct (X C1) as (ED & d & D1 & D2 & D3). split; [exact ED|]. exists d. split; [exact D1|]. split; [exact D2|]. intros search E fs GF' S. apply D3; [exact GF'|]. now apply (shown_display _ _ _ st).
      + destruct (tick_ok tr st r T) as (st1 & o & ST & T1 & RO & _ & _ & d & D1 & D2 & D3). pose proof (keys_ok ks (taken tr) st1 T1) as K. cbn [Monitor.run]. rewrite ST.
        destruct (keys_meaning compile (taken tr) ks) as [tr1|] eqn:KM; [|now rewrite K]. destruct K as (st2 & K & T2 & R2 & Q). rewrite K. specialize (IH tr1 st2 T2 G).
        destruct (meaning compile tr1 l) as [tr'|]; [|now rewrite IH]. destruct IH as (st' & ss & RN & T' & R' & X). rewrite RN. eexists st', _. split; [reflexivity|]. split; [exact T'|].
        split; [rewrite R', R2, RO; reflexivity|]. intros C.
        assert (Y : calm tr1 l /\ tk_edit tr1 = tk_edit tr /\ tk_done tr1 = tk_done (taken tr) /\ display st2 = display st1).
        { destruct C as [C|[C1 C2]].
          - apply Forall_cons_iff in C as [C1 C2]. cbn in C1. subst ks. cbn [Monitor.keys keys_meaning] in K, KM. injection K as <-. injection KM as KM.
            split; [now left|]. rewrite <- KM. split; [apply taken_edit|]. auto.
          - apply Forall_cons_iff in C2 as [C2 C3]. rewrite taken_edit in Q. destruct (Q C1 C2) as (Q1 & Q2 & Q3). split; [right; auto|]. split; [congruence|]. auto. }
        destruct Y as (C1 & Y1 & Y2 & Y3). destruct (X C1) as (ED & d' & E1 & E2 & E3). split; [congruence|]. exists (d ++ d').
        split; [rewrite E1, Y2, D1; now rewrite app_assoc|]. split.
        { rewrite E2. replace (basetime st2) with (basetime st1) by (unfold display in Y3; congruence). rewrite D2. destruct (basetime st), d, d'; reflexivity. }
        intros search E fs GF S. rewrite app_assoc. apply E3.
        * apply Forall_app. split; [exact GF|]. destruct (td_good _ _ T1) as [GD _]. rewrite D1 in GD. now apply Forall_app in GD.
        * apply (shown_display _ _ _ st1); [|exact Y3]. now apply D3.
  Qed.

  Lemma start_tracked text n : tracked (begin compile text) (start compile text n).
  Proof.
    constructor; try reflexivity.
    - constructor; cbn; [constructor|intros ? []|intros ? X; contradiction].
    - split; [reflexivity|]. split; [reflexivity|]. discriminate.
    - exists []. split; [constructor|reflexivity].
    - exists []. split; [constructor|reflexivity].
    - split; [constructor|]. intros k f. cbn. split; [discriminate|]. intros (a & b & p & ps & H & _). now destruct a.
    - cbn. intros k [].
    - split; constructor.
  Qed.
  Lemma start_shown text n : shown_from (compile text) [] [] (start compile text n).
  Proof.
    split; [reflexivity|]. exists []. split; [apply log_nil|]. constructor; cbn; auto; try (now intros; constructor).
    - intros x. split; [intros []|]. intros [(? & ? & ? & [])|[(? & ? & [])|[(? & ? & ? & [] & _)|(? & [=] & _)]]].
    - intros x ks [=].
    - intros x. split; [intros []|]. intros [[_ []]|(? & ? & ? & r & Y)]. now destruct r.
  Qed.

  (** Whatever is received and whatever keys are pressed, the monitor stops exactly if a q is pressed outside of the filter; the counters,
      the filter text and the input line of every screen are those of the events. *)
  Theorem C67_events text n evs : Forall good (frames_of evs) ->
    match meaning compile (begin compile text) evs with
    | None => run (start compile text n) evs = inr Quit
    | Some tr => exists st ss, run (start compile text n) evs = inl (st, ss) /\
        forall r, exists st' o, step st (Tick r []) = inl (st', o) /\
          (tk_playing tr = true /\ tk_pending tr <> [] \/ r <> None -> o <> None) /\
          forall s, o = Some s -> is_status (taken tr) (height n (evs ++ [Tick r []])) s
    end.
  Proof.
    intros G. pose proof (run_ok evs (begin compile text) (start compile text n) (start_tracked text n) G) as R.
    destruct (meaning compile (begin compile text) evs) as [tr|]; [|exact R]. destruct R as (st & ss & R & T & RO & _). exists st, ss. split; [exact R|].
    intros r. destruct (tick_ok tr st r T) as (st1 & o & ST & T1 & R1 & DR & SC & _). exists st1, o. split; [rewrite ST; reflexivity|]. split; [intros [X|X]; apply DR; auto|].
    intros s O. destruct (SC s O) as [X _]. unfold height in *. rewrite fold_left_app. cbn [fold_left]. cbn [start rows] in RO. rewrite <- RO. rewrite R1 in X. exact X.
  Qed.

  (** Without changes of the filter and without reset: the screen shows all frames that were taken from the queue, with the filter given at the start. *)
  Theorem C67_screen text n evs r : Forall good (frames_of evs) -> Forall still evs -> meaning compile (begin compile text) evs <> None ->
    exists tr st ss st' o, meaning compile (begin compile text) evs = Some tr /\ run (start compile text n) evs = inl (st, ss) /\
      step st (Tick r []) = inl (st', o) /\ (evs = [] \/ tk_playing tr = true /\ tk_pending tr <> [] \/ r <> None -> o <> None) /\
      forall s, o = Some s -> is_screen (compile text) [] (match tk_done (taken tr) with f :: _ => rm_time f | [] => 0 end) (tk_done (taken tr)) (height n (evs ++ [Tick r []])) s.
  Proof.
    intros G Q M. pose proof (run_ok evs (begin compile text) (start compile text n) (start_tracked text n) G) as R.
    destruct (meaning compile (begin compile text) evs) as [tr|] eqn:MM; [|contradiction]. destruct R as (st & ss & R & T & RO & X).
    destruct (X (or_intror (conj eq_refl Q))) as (ED & d & D1 & D2 & D3). cbn [begin tk_done app] in D1. pose proof (D3 _ _ [] (Forall_nil _) (start_shown text n)) as S. cbn [app] in S.
    destruct (tick_ok tr st r T) as (st1 & o & ST & T1 & R1 & DR & SC & d' & E1 & E2 & E3). exists tr, st, ss, st1, o. split; [reflexivity|]. split; [exact R|]. split; [rewrite ST; reflexivity|].
    split; [intros [->|[Y|Y]]; apply DR; auto; right; right; cbn in R; injection R as <- _; reflexivity|].
    intros s O. destruct (SC s O) as [_ Y]. rewrite <- D1 in S. destruct (td_good _ _ T) as [GD _]. specialize (Y _ _ _ (E3 _ _ _ GD S)). rewrite <- E1 in Y.
    unfold height in *. rewrite fold_left_app. cbn [fold_left]. cbn [start rows] in RO. rewrite <- RO. rewrite R1 in Y.
    replace (base_of st1) with (match tk_done (taken tr) with f :: _ => rm_time f | [] => 0 end) in Y; [exact Y|]. unfold base_of. rewrite E2, D2, E1, <- D1. cbn [start basetime]. destruct (tk_done tr), d'; reflexivity.
  Qed.

  (** After a key in the filter: the screen shows the latest frame of every entry and the frames taken since, with the new filter.
      Entries for which a frame could not be decoded may be listed whatever the filter is. *)
  Theorem C67_filter text n evs r0 ks k evs2 r : Forall good (frames_of (evs ++ evs2)) ->
    forall tr tr1 tr2 tr3, meaning compile (begin compile text) evs = Some tr -> keys_meaning compile (taken tr) ks = Some tr1 -> tk_edit tr1 <> None ->
    key_meaning compile tr1 k = Some tr2 -> calm tr2 evs2 -> meaning compile tr2 evs2 = Some tr3 ->
    exists st ss st' o, run (start compile text n) (evs ++ Tick r0 (ks ++ [k]) :: evs2) = inl (st, ss) /\ step st (Tick r []) = inl (st', o) /\
      (evs2 = [] \/ tk_playing tr3 = true /\ tk_pending tr3 <> [] \/ r <> None -> o <> None) /\
      forall s, o = Some s -> exists E base fs d, (forall x, In x E -> failed (tk_done tr2) x) /\ latest_frames (tk_done tr2) fs /\ tk_done (taken tr3) = tk_done tr2 ++ d /\
        is_screen (compile (whole tr2)) E base (map snd fs ++ d) (height n (evs ++ Tick r0 (ks ++ [k]) :: evs2 ++ [Tick r []])) s.
  Proof.
    intros G tr tr1 tr2 tr3 M1 M2 NE M3 C M4. unfold frames_of in G. rewrite flat_map_app in G. apply Forall_app in G as [G1 G2].
    pose proof (run_ok evs (begin compile text) (start compile text n) (start_tracked text n) G1) as R. rewrite M1 in R. destruct R as (st1 & ss1 & R1 & T1 & RO1 & _).
    destruct (tick_ok tr st1 r0 T1) as (st2 & o2 & ST2 & T2 & RO2 & _). pose proof (keys_ok ks (taken tr) st2 T2) as K. rewrite M2 in K. destruct K as (st3 & K3 & T3 & RO3 & _).
    destruct (tk_edit tr1) as [[[a b] old]|] eqn:ED; [|contradiction]. destruct (filter_key_ok tr1 st3 k a b old T3 ED) as (st4 & tr2' & K4 & M3' & T4 & S4 & RW & RO4 & MO).
    assert (tr2' = tr2) by congruence. subst tr2'. pose proof (run_ok evs2 tr2 st4 T4 G2) as R. rewrite M4 in R. destruct R as (st5 & ss5 & R5 & T5 & RO5 & X). destruct (X C) as (_ & d & D1 & D2 & D3).
    destruct (tick_ok tr3 st5 r T5) as (st6 & o & ST & T6 & RO6 & DR & SC & d' & E1 & E2 & E3).
    assert (KA : keys st2 (ks ++ [k]) = inl st4).
    { assert (KAPP : forall l x, keys x (l ++ [k]) = match keys x l with inl y => keys y [k] | inr z => inr z end).
      { induction l as [|c l IH]; intros x; [reflexivity|]. cbn [app Monitor.keys]. destruct (if show_filter x then _ else _); [apply IH|reflexivity]. }
      rewrite KAPP, K3. cbn [Monitor.keys]. destruct (td_input _ _ T3) as (SF & _). rewrite ED in SF. rewrite SF, K4. reflexivity. }
    eexists st5, _, st6, o. split; [rewrite run_app, R1; cbn [Monitor.run]; rewrite ST2, KA, R5; reflexivity|]. split; [rewrite ST; reflexivity|].
    split; [intros [->|[Y|Y]]; apply DR; auto; right; right; cbn in R5; injection R5 as <- _; exact MO|].
    intros s O. destruct (SC s O) as [_ Y].
    assert (GR : Forall good (map snd (raws st3))).
    { apply Forall_forall. intros f J. apply in_map_iff in J as ([x g] & <- & J). destruct (raws_good tr1 st3 x g T3 J) as (_ & B & p & ps & RP). split; [exact B|]. eauto. }
    assert (GD : Forall good (map snd (raws st3) ++ d)).
    { apply Forall_app. split; [exact GR|]. destruct (td_good _ _ T5) as [GD _]. rewrite D1 in GD. now apply Forall_app in GD. }
    specialize (Y _ _ _ (E3 _ _ _ GD (D3 _ _ _ GR S4))).
    assert (DN : tk_done tr2 = tk_done tr1). { clear - M3 ED. unfold key_meaning in M3. rewrite ED in M3. destruct k as [c| | | | | | | | |]; try (injection M3 as <-; reflexivity). destruct c as [[] [] [] [] [] [] [] []]; injection M3 as <-; reflexivity. }
    assert (SE : tk_search tr2 = compile (whole tr2)). { clear - M3 ED. unfold key_meaning in M3. rewrite ED in M3. destruct k as [c| | | | | | | | |]; try (injection M3 as <-; reflexivity). destruct c as [[] [] [] [] [] [] [] []]; injection M3 as <-; reflexivity. }
    exists (with_error st3), (base_of st6), (raws st3), (d ++ d'). split; [intros x I; rewrite DN; now apply (td_werr _ _ T3)|]. split; [rewrite DN; apply (td_raws _ _ T3)|].
    split; [rewrite E1, D1; now rewrite app_assoc|]. rewrite app_assoc, <- SE.
    replace (height n (evs ++ Tick r0 (ks ++ [k]) :: evs2 ++ [Tick r []])) with (rows st6); [exact Y|].
    unfold height in *. rewrite fold_left_app. cbn [fold_left]. rewrite fold_left_app. cbn [fold_left]. cbn [start rows] in RO1. rewrite <- RO1, <- RO2, <- RO3, <- RO4, <- RO5. exact RO6.
  Qed.

  (** Databases with ordinary signals: only a contained message that cannot be decoded makes a frame bad *)
  Definition legible (f : raw_message) : Prop :=
    bytes_ok (rm_data f) /\ forall e l x b, get_message_by_frame_id db (rm_id f) (rm_ext f) = Ok e -> decode_container (e_container e) (rm_data f) true true false true = Ok l -> ~ In (inr x, PBytes b) l.
  Theorem C67_good f : ordinary_database db -> legible f -> good f.
  Proof.
    intros [OD _] [BO LE]. split; [exact BO|]. destruct (get_message_by_frame_id db (rm_id f) (rm_ext f)) as [e|x] eqn:GM.
    - assert (OE : ordinary_entry e).
      { unfold get_message_by_frame_id, zget_exn in GM. destruct (zget (db_by_id db) _) as [y|] eqn:Z; [|discriminate]. apply Ok_inj in GM. subst y. apply (get_in _ zspec) in Z. rewrite Forall_forall in OD. apply OD. apply (in_map snd) in Z. exact Z. }
      destruct OE as (SM & OS & OC). destruct (e_contained e) as [|c cs] eqn:EC.
      + destruct (Z.le_gt_cases (m_length (e_msg e)) (zlen (rm_data f))) as [L|L]; [|eexists _, _; now apply (rp_short _ _ _ _ _ e)].
        destruct (decode (e_msg e) (rm_data f) true true true true) as [d|x] eqn:D; [eexists _, _; now apply (rp_values _ _ _ _ _ e d)|].
        rewrite (C65_message _ _ _ _ _ _ _ SM OS BO D) in D. eexists _, _. now apply (rp_bad _ _ _ _ _ e).
      + assert (NE : e_contained e <> []) by (rewrite EC; discriminate). rewrite <- EC in *. clear EC c cs. specialize (OC NE).
        destruct (decode_container (e_container e) (rm_data f) true true false true) as [l|x] eqn:D; [|rewrite (C65_container _ _ _ _ _ _ _ OC BO D) in D; eexists _, _; now apply (rp_bad_container _ _ _ _ _ e)].
        assert (SH : exists ps, inside float_text raw_initial (txt (m_name (e_msg e))) l = Some ps).
        { specialize (LE e l). assert (LE' : forall x b, ~ In (inr x, PBytes b) l) by (intros; now apply LE). clear LE. unfold decode_container in D. destruct (negb _); [discriminate|]. apply bind_ok in D as (q & _ & D).
          revert l D LE'. induction q as [|[[id|x] body] q IH]; intros l D LE; cbn [decode_items] in D.
          - apply Ok_inj in D. subst l. cbn. eauto.
          - apply bind_ok in D as (tl & D1 & D2). apply Ok_inj in D2. subst l. destruct (IH tl D1) as [ps P]; [intros y b I; apply (LE y b); now right|]. cbn [inside]. rewrite P. eauto.
          - apply bind_ok in D as (p & DP & D). apply bind_ok in D as (tl & D1 & D2). apply Ok_inj in D2. subst l. destruct (IH tl D1) as [ps P]; [intros y b I; apply (LE y b); now right|].
            destruct p as [b|d]; [exfalso; apply (LE x b); now left|]. cbn [inside]. rewrite P. eauto. }
        destruct SH as [ps SH]. eexists _, _. now apply (rp_container _ _ _ _ _ e l ps).
    - assert (x = KeyError) as -> by (unfold get_message_by_frame_id, zget_exn in GM; destruct (zget (db_by_id db) _); congruence). eexists _, _. now apply rp_unknown.
  Qed.
End Sim.

(** * Examples *)
Definition ex_float (f : spec_float) : chars := txt "?".
Definition ex_unit (s : signal) : option chars := if String.eqb (s_name s) "Speed" then Some (txt "km/h") else None.
Definition ex_explain (e : entry) (d : list Z) : chars := txt "bad".
Definition ex_stamp (t : Z) : chars := decimal t.
Definition ex_initial (s : signal) : option num := None.
Fixpoint starts (p t : chars) : bool := match p, t with [], _ => true | c :: p', d :: t' => Ascii.eqb c d && starts p' t' | _ :: _, [] => false end.
Fixpoint finds (p t : chars) : bool := starts p t || match t with [] => false | _ :: t' => finds p t' end.
Definition ex_compile (t : chars) : option (chars -> bool) := match t with [] => None | _ => Some (finds t) end.
(** The screens: the lines, and the counters of received, discarded and undecoded frames *)
Definition watch (db : database) (text : string) (l : list event) : list (list string * (Z * Z * Z)) + stop :=
  match run ex_compile ex_float ex_stamp ex_unit ex_initial ex_explain true db (start ex_compile (txt text) 10) l with
  | inl (_, ss) => inl (map (fun s => (map string_of_list_ascii (sc_lines s), fst (sc_stats s))) ss)
  | inr x => inr x
  end.
Definition ex_ok := mkRaw 0x123 false 100 [18; 0; 16; 0; 4; 0; 0; 0].
Definition ex_two := mkRaw 5 true 105 [0; 0; 10; 8; 2; 0; 16; 0; 4; 0; 0; 0; 0; 0; 20; 3; 0; 1; 2].
Definition ex_short := mkRaw 0x123 false 107 [18; 0].
Definition ex_none := mkRaw 0x124 false 109 [18; 0].
Definition ex_events : list event := [Frame ex_ok; Frame ex_two; Frame ex_none; Tick None [KDown]; Frame ex_short; Tick None [KUp]].
Definition named (db : database) : bool :=
  let es := map snd (db_by_id db) in
  forallb (fun e => negb (existsb (Ascii.eqb " ") (txt (m_name (e_msg e)))) && forallb (fun x => negb (Ascii.eqb (hd " "%char (txt (m_name (ct_msg x)))) "0")) (e_contained e) &&
    forallb (fun e' => match e_contained e, e_contained e' with _ :: _, [] => negb (String.eqb (m_name (e_msg e)) (m_name (e_msg e'))) | _, _ => true end) es) es.
Lemma named_ok db : named db = true -> well_named db.
Proof.
  unfold named. intros H e I. rewrite forallb_forall in H. specialize (H e I). apply andb_prop in H as [H H3]. apply andb_prop in H as [H1 H2]. split; [|split].
  - intros J. apply negb_true_iff in H1. assert (X : existsb (Ascii.eqb " ") (txt (m_name (e_msg e))) = true) by (apply existsb_exists; exists " "%char; split; [exact J|reflexivity]). congruence.
  - intros x J K. rewrite forallb_forall in H2. specialize (H2 x J). rewrite K in H2. discriminate.
  - intros e' J N M K. rewrite forallb_forall in H3. specialize (H3 e' J). rewrite M in H3. destruct (e_contained e); [contradiction|]. rewrite K, String.eqb_refl in H3. discriminate.
Qed.
Lemma ex_well_named : well_named ex_db.
Proof. apply named_ok. vm_compute. reflexivity. Qed.
Lemma no_container_legible db f : bytes_ok (rm_data f) -> (forall e, get_message_by_frame_id db (rm_id f) (rm_ext f) = Ok e -> e_contained e = []) -> legible db f.
Proof. intros B H. split; [exact B|]. intros e l x b G D. unfold decode_container, is_container in D. cbn in D. rewrite (H e G) in D. discriminate. Qed.
Lemma ex_legible : Forall (legible ex_db) (frames_of ex_events).
Proof.
  assert (B : Forall (fun f => bytes_ok (rm_data f)) (frames_of ex_events)) by (repeat constructor; cbn; lia).
  apply Forall_forall. intros f I. rewrite Forall_forall in B. specialize (B f I). destruct I as [<-|[<-|[<-|[<-|[]]]]].
  - apply no_container_legible; [exact B|]. intros e. vm_compute. now intros [= <-].
  - split; [exact B|]. intros e l x b G D I.
    assert (E : e = mkEntry box_msg true [ex_contained; flat_contained]) by (vm_compute in G; apply Ok_inj in G; subst e; vm_compute; reflexivity). subst e.
    vm_compute in D. apply Ok_inj in D. subst l. destruct I as [I|[I|[]]]; discriminate.
  - apply no_container_legible; [exact B|]. intros e. vm_compute. discriminate.
  - apply no_container_legible; [exact B|]. intros e. vm_compute. now intros [= <-].
Qed.
Example C67_hypotheses : well_named ex_db /\ ordinary_database ex_db /\ Forall (good ex_float ex_initial ex_explain ex_db) (frames_of ex_events) /\ Forall still ex_events /\
  meaning ex_compile (begin ex_compile []) ex_events <> None /\
  watch ex_db "" ex_events = inl [
    (["5  Box(Ex, 0x14)"; "5  Box :: 0x14(undecoded: 0x000102)"; "5  Box :: Ex :: Mux=2 :: Sub=0(Mux: 2, State: Off, Speed: 7 km/h, C: 128, F: ?)";
      "0  Ex :: Mux=2 :: Sub=0(Mux: 2, State: On, Speed: 7 km/h, C: 128, F: ?)"], (3, 1, 0));
    (["5  Box(Ex, 0x14)"; "5  Box :: 0x14(undecoded: 0x000102)"; "5  Box :: Ex :: Mux=2 :: Sub=0(Mux: 2, State: Off, Speed: 7 km/h, C: 128, F: ?)";
      "7  Ex(undecoded, 6 bytes too short: 0x1200)"; "0  Ex :: Mux=2 :: Sub=0(Mux: 2, State: On, Speed: 7 km/h, C: 128, F: ?)"], (4, 1, 1))].
Proof.
  split; [exact ex_well_named|]. split; [exact (proj1 C65_hypotheses)|]. split; [|split; [|split; [vm_compute; discriminate|vm_compute; reflexivity]]].
  - eapply Forall_impl; [|exact ex_legible]. intros f. apply C67_good. exact (proj1 C65_hypotheses).
  - repeat constructor; cbn; discriminate.
Qed.
(** The filter "B" is typed, a frame comes, the filter is left with enter, and another frame comes. *)
Definition ex_track (o : option track) : track := match o with Some t => t | None => begin ex_compile [] end.
Definition ex_tr := ex_track (meaning ex_compile (begin ex_compile []) ex_events).
Definition ex_tr1 := ex_track (keys_meaning ex_compile (taken ex_tr) [Char "f"]).
Definition ex_tr2 := ex_track (key_meaning ex_compile ex_tr1 (Char "B")).
Definition ex_events2 := [Frame ex_ok; Tick None []].
Definition ex_tr3 := ex_track (meaning ex_compile ex_tr2 ex_events2).
Example C67_filter_hypotheses :
  meaning ex_compile (begin ex_compile []) ex_events = Some ex_tr /\ keys_meaning ex_compile (taken ex_tr) [Char "f"] = Some ex_tr1 /\ tk_edit ex_tr1 <> None /\
  key_meaning ex_compile ex_tr1 (Char "B") = Some ex_tr2 /\ calm ex_tr2 ex_events2 /\ meaning ex_compile ex_tr2 ex_events2 = Some ex_tr3 /\ whole ex_tr2 = txt "B" /\
  Forall (good ex_float ex_initial ex_explain ex_db) (frames_of (ex_events ++ ex_events2)) /\
  match watch ex_db "" (ex_events ++ Tick None ([Char "f"] ++ [Char "B"]) :: ex_events2) with
  | inl [_; _; _; s] => s = (["5  Box(Ex, 0x14)"; "5  Box :: 0x14(undecoded: 0x000102)"; "5  Box :: Ex :: Mux=2 :: Sub=0(Mux: 2, State: Off, Speed: 7 km/h, C: 128, F: ?)"], (5, 1, 1))
  | _ => False
  end.
Proof.
  split; [vm_compute; reflexivity|]. split; [vm_compute; reflexivity|]. split; [vm_compute; discriminate|]. split; [vm_compute; reflexivity|]. split; [left; repeat constructor|]. split; [vm_compute; reflexivity|].
  split; [vm_compute; reflexivity|]. split; [|vm_compute; reflexivity].
  destruct C67_hypotheses as (_ & _ & G & _). unfold frames_of. rewrite flat_map_app. apply Forall_app. split; [exact G|]. apply Forall_inv in G. constructor; [exact G|constructor].
Qed.

(** * What the monitor gets wrong *)
Definition empty_msg : message := match mk_message 0x201 false "Empty" 0 0 [] true SortDefault with Ok m => m | Err _ => flat_msg end.
Definition fl_db : database :=
  let a := mkEntry flat_msg true [] in let b := mkEntry empty_msg true [] in let c := mkEntry box_msg true [ex_contained; flat_contained] in
  mkDatabase [a; b; c] [("Flat", a); ("Empty", b); ("Box", c)] [(0x200, a); (0x201, b); (0x80000005, c)] 0xffffffff true.
Definition fl_ok := mkRaw 0x200 false 100 [1; 2; 3].
Definition fl_short := mkRaw 0x200 false 90 [1].
Lemma fl_well_named : well_named fl_db.
Proof. apply named_ok. vm_compute. reflexivity. Qed.
(** A frame of a container with a contained message that is too short ends the monitor. *)
Theorem C67_container_refuted : well_named fl_db /\ watch fl_db "" [Frame (mkRaw 5 true 90 [1; 2; 3; 1; 9]); Tick None []] = inr (Raised AttributeError).
Proof. split; [exact fl_well_named|vm_compute; reflexivity]. Qed.
(** A message without signals is never listed, though there is no filter. *)
Theorem C67_empty_refuted : watch fl_db "" [Frame (mkRaw 0x201 false 90 []); Tick None []] = inl [([], (1, 0, 0))].
Proof. vm_compute. reflexivity. Qed.
(** A message that does not match the filter is listed with all of its signals if an earlier frame could not be decoded. *)
Theorem C67_error_refuted :
  watch fl_db "zz" [Frame fl_ok; Tick None []] = inl [([], (1, 0, 0))] /\
  watch fl_db "zz" [Frame fl_short; Frame fl_ok; Tick None []] = inl [(["10  Flat(X: 258, Y: 0)"], (2, 0, 1))].
Proof. split; vm_compute; reflexivity. Qed.
(** Reset: the number of undecoded frames stays, the next frame shows the signals of the filter that was reset, and the messages
    from before the reset are listed again after a change of the filter. *)
Theorem C67_reset_refuted :
  watch fl_db "" [Frame fl_short; Tick None [Char "r"]; Tick None []] = inl [(["0  Flat(undecoded, 2 bytes too short: 0x01)"], (1, 0, 1)); ([], (0, 0, 1))] /\
  watch fl_db "X" [Frame fl_ok; Tick None [Char "r"]; Frame fl_ok; Tick None []] = inl [(["0  Flat(X: 258)"], (1, 0, 0)); (["0  Flat(X: 258)"], (1, 0, 0))] /\
  watch fl_db "" [Frame fl_ok; Tick None [Char "r"]; Tick None [Char "f"; Char "010"]; Tick None []] =
    inl [(["0  Flat(X: 258, Y: 0)"], (1, 0, 0)); ([], (0, 0, 0)); (["0  Flat(X: 258, Y: 0)"], (0, 0, 0))].
Proof. split; [|split]; vm_compute; reflexivity. Qed.
