(** Prop_DecodeCmd: C66, the decode command. *)
From Coq Require Import Ascii Floats.SpecFloat.
From Verif Require Import Base PyNum Conversion Signal Bitstruct Message Container Database LayoutSpec CodecSpec DictLemmas BitsLemmas NodeProofs TreeProofs MsgProofs Construct CodecThms RoundTrip
     Examples CSource CNames Regex Logreader LogSpec LogProofs DecText DecodeErr Prop_Container Prop_Log Prop_Sticky Prop_DecodeErr DecodeCmd.
Local Open Scope string_scope.
Local Open Scope Z_scope.
Local Open Scope list_scope.

(** * Specification *)
Section Spec.
  Context (float_text : spec_float -> chars) (unit_of : signal -> option chars).
  (** The text of a value: decimal digits, the text of the float, or the label *)
  Definition shows (v : value) (t : chars) : Prop :=
    match v with VNum (NInt z) => t = decimal z | VNum (NFlt f) => t = float_text f | VStr s | VNamed _ s => t = txt s end.
  (** "name: value", followed by the unit if the value is a number *)
  Definition item (p : signal * value) (t : chars) : Prop :=
    exists x u, t = txt (s_name (fst p)) ++ txt ": " ++ x ++ u /\ shows (snd p) x /\
      ((exists n w, snd p = VNum n /\ unit_of (fst p) = Some w /\ u = " "%char :: w) \/
       (~ (exists n w, snd p = VNum n /\ unit_of (fst p) = Some w) /\ u = [])).
  (** Texts with a separator between them *)
  Inductive separated (sep : chars) : list chars -> chars -> Prop :=
  | sep_none : separated sep [] []
  | sep_one x : separated sep [x] x
  | sep_more x l t : l <> [] -> separated sep l t -> separated sep (x :: l) (x ++ sep ++ t).
  (** A name and items in parentheses, on one line or on a line each *)
  Definition listing (single : bool) (name : string) (items : list chars) (t : chars) : Prop :=
    if single then exists b, separated (txt ", ") items b /\ t = txt " " ++ txt name ++ txt "(" ++ b ++ txt ")"
    else exists b, separated (","%char :: nl) items b /\ t = nl ++ txt name ++ txt "(" ++ nl ++ b ++ nl ++ txt ")".
  Definition tabbed (t : chars) : chars := txt "    " ++ t.

  (** A message with the items of exactly the signals that are present in the payload, in the order of the message *)
  Definition message_shown (single choices lenient : bool) (m : message) (data : list Z) (t : chars) : Prop :=
    (zlen data <> m_length m -> lenient = true) /\
    exists l items, decoded m data choices true (map (fun p => (s_name (fst p), snd p)) l) /\
      (exists f, map fst l = filter f (m_signals m)) /\ Forall2 item l items /\
      listing single (m_name m) (if single then items else map tabbed items) t.
  Definition undecodable (choices lenient : bool) (m : message) (data : list Z) : Prop :=
    (zlen data <> m_length m /\ lenient = false) \/ forall out, ~ decoded m data choices true out.

  (** Hexadecimal numbers and bytes *)
  Definition hex_number (n : Z) (width : nat) (t : chars) : Prop :=
    hex_int t = n /\ (width <= List.length t)%nat /\ forallb hex_any t = true.
  Definition hex_byte (b : Z) (t : chars) : Prop := hex_number b 2 t /\ List.length t = 2%nat.
  Definition hex_bytes (sep : chars) (data : list Z) (t : chars) : Prop := exists ts, Forall2 hex_byte data ts /\ separated sep ts t.
  (** Four blanks after each line feed *)
  Definition shifted (t : chars) : chars := flat_map (fun c => if Ascii.eqb c "010" then c :: txt "    " else [c]) t.

  (** A contained message of a container *)
  Inductive contained_shown (choices lenient : bool) : bool -> (Z + contained) * list Z -> chars -> Prop :=
  | cs_unknown_single id data h d : hex_number id 1 h -> hex_bytes [] data d ->
      contained_shown choices lenient true (inl id, data) (txt "(Unknown contained message: Header ID: 0x" ++ h ++ txt ", Data: " ++ d ++ txt ")")
  | cs_unknown_multi id data h d : hex_number id 6 h -> hex_bytes [] data d ->
      contained_shown choices lenient false (inl id, data) (txt "    " ++ h ++ txt "##" ++ d ++ txt " ::" ++ nl ++ txt "    Unknown contained message")
  | cs_bad_single x data d : undecodable choices lenient (ct_msg x) data -> hex_bytes (txt " ") data d ->
      contained_shown choices lenient true (inr x, data) (txt (m_name (ct_msg x)) ++ txt ": Undecodable data: " ++ d)
  | cs_bad_multi x data id h d : undecodable choices lenient (ct_msg x) data -> ct_header x = Some id -> hex_number id 6 h -> hex_bytes [] data d ->
      contained_shown choices lenient false (inr x, data)
        (txt "    " ++ h ++ txt "##" ++ d ++ txt " ::" ++ nl ++ txt "    " ++ txt (m_name (ct_msg x)) ++ txt ": Undecodable data")
  | cs_good_single x data t : message_shown true choices lenient (ct_msg x) data t -> contained_shown choices lenient true (inr x, data) t
  | cs_good_multi x data id h d t : message_shown false choices lenient (ct_msg x) data t -> ct_header x = Some id -> hex_number id 6 h -> hex_bytes [] data d ->
      contained_shown choices lenient false (inr x, data) (txt "    " ++ shifted (h ++ txt "##" ++ d ++ txt " ::" ++ t)).

  (** The text after " ::" *)
  Inductive annotation (db : database) (o : options) (id : Z) (data : list Z) : chars -> Prop :=
  | an_unknown h : get_message_by_frame_id db id false = Err KeyError -> hex_number id 1 h ->
      annotation db o id data (txt " Unknown frame id " ++ decimal id ++ txt " (0x" ++ h ++ txt ")")
  | an_message e t : get_message_by_frame_id db id false = Ok e -> e_contained e = [] ->
      message_shown (o_single o) (o_choices o) (o_lenient o) (e_msg e) data t -> annotation db o id data t
  | an_bad e x : get_message_by_frame_id db id false = Ok e -> e_contained e = [] ->
      undecodable (o_choices o) (o_lenient o) (e_msg e) data -> annotation db o id data (" "%char :: x)
  | an_box e h : get_message_by_frame_id db id false = Ok e -> e_contained e <> [] -> o_containers o = false -> hex_number id 1 h ->
      annotation db o id data (txt " Frame 0x" ++ h ++ txt " is a container message")
  | an_container e u items t : get_message_by_frame_id db id false = Ok e -> e_contained e <> [] -> o_containers o = true ->
      unpack_container (e_container e) data (o_lenient o) = Ok u -> Forall2 (contained_shown (o_choices o) (o_lenient o) (o_single o)) u items ->
      listing (o_single o) (m_name (e_msg e)) items t -> annotation db o id data t
  | an_bad_container e x : get_message_by_frame_id db id false = Ok e -> e_contained e <> [] -> o_containers o = true ->
      unpack_container (e_container e) data (o_lenient o) = Err DecodeError -> annotation db o id data (" "%char :: x).
End Spec.

(** * Texts *)
Lemma join_separated sep l : separated sep l (join sep l).
Proof.
  induction l as [|x [|y l] IH]; [constructor|constructor|]. change (join sep (x :: y :: l)) with (x ++ sep ++ join sep (y :: l)). apply sep_more; [discriminate|exact IH].
Qed.
Lemma hexl_digit_value n : 0 <= n < 16 -> hex_value (hexl_digit n) = n /\ hex_any (hexl_digit n) = true.
Proof.
  intros H. assert (E : exists k, (k < 16)%nat /\ n = Z.of_nat k) by (exists (Z.to_nat n); lia). destruct E as (k & K & ->). clear H.
  do 16 (destruct k as [|k]; [split; reflexivity|]). lia.
Qed.
Lemma hexl_spec w : forall n, 0 <= n < 16 ^ Z.of_nat w -> hex_int (hexl w n) = n /\ List.length (hexl w n) = w /\ forallb hex_any (hexl w n) = true.
Proof.
  induction w as [|w IH]; intros n H; [cbn in *; repeat split; lia|]. rewrite Nat2Z.inj_succ, Z.pow_succ_r in H by lia. cbn [hexl].
  assert (M := Z.mod_pos_bound n 16 eq_refl). destruct (hexl_digit_value (n mod 16) M) as [V A].
  destruct (IH (n / 16)) as (I1 & I2 & I3); [split; [apply Z.div_pos; lia|apply Z.div_lt_upper_bound; lia]|].
  rewrite hex_int_snoc, I1, V, app_length, I2, forallb_app, I3. cbn [List.length forallb]. rewrite A. pose proof (Z.div_mod n 16). repeat split; lia.
Qed.
Lemma hex_text_number w n : 0 <= n -> hex_number n w (hex_text w n).
Proof.
  intros H. unfold hex_text. set (k := Nat.max w _). destruct (hexl_spec k n) as (A & B & C); [|unfold hex_number; rewrite B; repeat split; auto; unfold k; lia].
  split; [exact H|]. destruct (Z.eq_dec n 0) as [->|N]; [apply Z.pow_pos_nonneg; lia|].
  pose proof (Z.log2_spec n ltac:(lia)) as [_ L]. pose proof (Z.log2_nonneg n) as L0.
  eapply Z.lt_le_trans; [exact L|]. change 16 with (2 ^ 4). rewrite <- Z.pow_mul_r by lia. apply Z.pow_le_mono_r; [lia|].
  pose proof (Z.div_mod (Z.log2 n) 4). pose proof (Z.mod_pos_bound (Z.log2 n) 4 eq_refl). pose proof (Z.div_pos (Z.log2 n) 4). unfold k. lia.
Qed.
Lemma bytes_hex_spec sep l : bytes_ok l -> hex_bytes sep l (bytes_hex sep l).
Proof.
  intros H. exists (map (hexl 2) l). split; [|apply join_separated]. unfold bytes_ok in H. induction H as [|b l B H IH]; [constructor|]. constructor; [|exact IH].
  unfold byte_ok in B. destruct (hexl_spec 2 b) as (A & L & C); [cbn; lia|]. split; [|exact L]. repeat split; auto.
Qed.

(** Frames read from a log have bytes and an id that is not negative. *)
Lemma hex_value_range c : hex_any c = true -> 0 <= hex_value c < 16.
Proof. destruct c as [[] [] [] [] [] [] [] []]; vm_compute; intros H; try discriminate H; repeat split; discriminate || reflexivity. Qed.
Lemma pair_byte a b : hex_any a && hex_any b = true -> byte_ok (16 * hex_value a + hex_value b).
Proof. intros H. apply andb_true_iff in H as [A B]. apply hex_value_range in A, B. unfold byte_ok. lia. Qed.
Lemma unhexlify_ok : forall k l b, (List.length l < k)%nat -> unhexlify l = Ok b -> bytes_ok b.
Proof.
  induction k as [|k IH]; intros l b K H; [lia|]. destruct l as [|x [|y l]]; cbn in H; [injection H as <-; constructor|discriminate|].
  destruct (hex_any x && hex_any y) eqn:P; [|discriminate]. destruct (unhexlify l) as [t|] eqn:E; [|discriminate]. injection H as <-. constructor; [now apply pair_byte|]. apply (IH l); [cbn in K; lia|exact E].
Qed.
Lemma fromhex_ok : forall k l b, (List.length l < k)%nat -> fromhex l = Ok b -> bytes_ok b.
Proof.
  induction k as [|k IH]; intros l b K H; [lia|]. destruct l as [|x l]; cbn in H; [injection H as <-; constructor|].
  destruct (Ascii.eqb x " "); [apply (IH l); [cbn in K; lia|exact H]|]. destruct l as [|y l]; [discriminate|].
  destruct (hex_any x && hex_any y) eqn:P; [|discriminate]. destruct (fromhex l) as [t|] eqn:E; [|discriminate]. injection H as <-. constructor; [now apply pair_byte|]. apply (IH l); [cbn in K; lia|exact E].
Qed.
Lemma parse_frame st l f : snd (parse st l) = Ok (Some f) -> bytes_ok (df_data f).
Proof.
  unfold parse. cbn [snd]. destruct (match st with Some p => Some p | None => detect l end) as [p|]; [|discriminate]. unfold pmatch. destruct (re_match (pattern_re p) l) as [c|]; [|discriminate].
  intros H. destruct (unpack p c) as [[g|]|] eqn:U; try discriminate. injection H as ->. clear st l.
  assert (CU : forall q, candump_unpack q c = Ok (Some f) -> bytes_ok (df_data f)).
  { intros q Q. unfold candump_unpack in Q. destruct (group c "error_frame"); [discriminate|].
    destruct (texteq (grp c "can_data") "remote request" || texteq (grp c "can_data") "R").
    - cbn [bind] in Q. match type of Q with bind ?x _ = _ => destruct x end; [|discriminate]. injection Q as <-. constructor.
    - destruct (unhexlify _) as [b|] eqn:E; [|discriminate]. cbn [bind] in Q. match type of Q with bind ?x _ = _ => destruct x end; [|discriminate]. injection Q as <-. cbn. eapply unhexlify_ok; [|exact E]. apply le_n. }
  assert (PU : forall q, pcan_unpack q c = Ok (Some f) -> bytes_ok (df_data f)).
  { intros q Q. unfold pcan_unpack in Q. match type of Q with (if ?x then _ else _) = _ => destruct x end; [discriminate|].
    match type of Q with bind (if ?x then _ else _) _ = _ => destruct x end.
    - cbn [bind] in Q. destruct (float_ok_any _); [|discriminate]. injection Q as <-. constructor.
    - destruct (group c "can_data") as [t|]; [|discriminate]. destruct (texteq t "RTR").
      + cbn [bind] in Q. destruct (float_ok_any _); [|discriminate]. injection Q as <-. constructor.
      + destruct (fromhex t) as [b|] eqn:E; [|discriminate]. cbn [bind] in Q. destruct (float_ok_any _); [|discriminate]. injection Q as <-. cbn. eapply fromhex_ok; [|exact E]. apply le_n. }
  unfold unpack in U. destruct p; eauto.
Qed.

(** * Messages *)
Lemma ordinary_tables m : Forall ordinary (m_signals m) -> plain_tables m.
Proof.
  intros H s I F. rewrite Forall_forall in H. destruct (H s I) as (_ & scale & offset & ch & fl & E & _ & _ & T & _). unfold factory in E.
  destruct (num_factory scale offset fl) as [n|] eqn:N; [|discriminate]. cbn [bind] in E.
  assert (FL : fl = true); [|specialize (T FL); subst ch; injection E as <-; reflexivity].
  destruct ch as [ch|]; apply Ok_inj in E; rewrite <- E in F; cbn [conv_is_float] in F; [exact F|].
  unfold num_factory in N. destruct (py_eq scale (NInt 1) && py_eq offset (NInt 0)); [apply Ok_inj in N; now subst n|].
  destruct (is_integer scale && is_integer offset && negb fl) eqn:G; [|apply Ok_inj in N; now subst n].
  destruct (py_int scale); [|discriminate]. cbn [bind] in N. destruct (py_int offset); [|discriminate]. cbn [bind] in N. apply Ok_inj in N. now subst n.
Qed.
Lemma decoded_ext m data dc sc o o' : decoded m data dc sc o -> (forall k, sget o' k = sget o k) -> NoDup (map fst o') -> decoded m data dc sc o'.
Proof.
  intros [N V O K] E ND. set (all := m_signals m) in *.
  assert (S : forall k, selectors all o k = selectors all o' k) by (intros k; unfold selectors; now rewrite E).
  assert (A : forall s, active all (selectors all o) s <-> active all (selectors all o') s) by (intros s; apply active_ext2; intros t _; apply S).
  split; [exact ND| | |]; fold all.
  - intros s H W. rewrite E. apply V; [now apply A|exact W].
  - intros k v H. rewrite E in H. destruct (O k v H) as (s & A1 & A2 & A3). exists s. split; [now apply A|auto].
  - intros s H W M X. apply A in H. destruct (K s H W M X) as (v & G & Q). exists v. split; [now rewrite <- S|exact Q].
Qed.

Section Main.
  Context (float_text : spec_float -> chars) (unit_of : signal -> option chars) (explain : entry -> list Z -> chars).

  Definition pairs_of (d : list (string * value)) (all : list signal) : list (signal * value) :=
    flat_map (fun s => match sget d (s_name s) with Some v => [(s, v)] | None => [] end) all.
  Lemma pairs_filter d all : map fst (pairs_of d all) = filter (fun s => match sget d (s_name s) with Some _ => true | None => false end) all.
  Proof. induction all as [|s all IH]; [reflexivity|]. cbn [pairs_of flat_map filter]. fold (pairs_of d all). destruct (sget d (s_name s)); cbn [app map fst]; now rewrite IH. Qed.
  Lemma pairs_in d all s v : In (s, v) (pairs_of d all) <-> In s all /\ sget d (s_name s) = Some v.
  Proof.
    unfold pairs_of. rewrite in_flat_map. split.
    - intros (t & T & H). destruct (sget d (s_name t)) as [u|] eqn:E; [|destruct H]. destruct H as [H|[]]. injection H as -> ->. auto.
    - intros [I E]. exists s. split; [exact I|]. rewrite E. now left.
  Qed.
  Lemma pairs_keys d all : NoDup (map s_name all) -> NoDup (map fst (map (fun p : signal * value => (s_name (fst p), snd p)) (pairs_of d all))).
  Proof.
    intros N. rewrite map_map. cbn [fst]. rewrite <- (map_map fst s_name). rewrite pairs_filter.
    induction all as [|s all IH]; [constructor|]. cbn [map] in N. inversion N as [|? ? N1 N2]; subst. cbn [filter]. destruct (match sget d (s_name s) with Some _ => true | None => false end); [|now apply IH].
    cbn [map]. constructor; [|now apply IH]. intros X. apply N1. apply in_map_iff in X. destruct X as (t & T & F). apply filter_In in F. rewrite <- T. now apply in_map.
  Qed.
  Lemma pairs_items d all : Forall2 (item float_text unit_of) (pairs_of d all) (flat_map (fun s => match sget d (s_name s) with Some v => [format_signal float_text unit_of s v] | None => [] end) all).
  Proof.
    induction all as [|s all IH]; [constructor|]. cbn [pairs_of flat_map]. fold (pairs_of d all). destruct (sget d (s_name s)) as [v|]; [|exact IH]. cbn [app]. constructor; [|exact IH].
    unfold item. cbn [fst snd].
    assert (SH : shows float_text v (value_text float_text v)) by (destruct v as [[]| |]; reflexivity).
    unfold format_signal. destruct (unit_of s) as [w|] eqn:U.
    - destruct v as [n|z|z l].
      + exists (value_text float_text (VNum n)), (" "%char :: w). split; [reflexivity|]. split; [exact SH|]. left. eauto.
      + exists (value_text float_text (VStr z)), []. split; [now rewrite app_nil_r|]. split; [exact SH|]. right. split; [intros (n & x & Q & _); discriminate Q|reflexivity].
      + exists (value_text float_text (VNamed z l)), []. split; [now rewrite app_nil_r|]. split; [exact SH|]. right. split; [intros (n & x & Q & _); discriminate Q|reflexivity].
    - exists (value_text float_text v), []. split; [now rewrite app_nil_r|]. split; [exact SH|]. right. split; [intros (n & x & _ & Q); discriminate Q|reflexivity].
  Qed.
  Lemma format_listing single m d : listing single (m_name m) (if single then format_signals float_text unit_of m d else map tabbed (format_signals float_text unit_of m d)) (format_message float_text unit_of m d single).
  Proof.
    destruct single; cbn [format_message listing].
    - eexists. split; [apply join_separated|reflexivity].
    - eexists. split; [apply join_separated|reflexivity].
  Qed.

  Lemma message_text m data dc len single : strict_message m -> Forall ordinary (m_signals m) -> bytes_ok data ->
    match decode m data dc true len len with
    | Ok d => message_shown float_text unit_of single dc len m data (format_message float_text unit_of m d single)
    | Err x => x = DecodeError /\ undecodable dc len m data
    end.
  Proof.
    intros SM OS BO. destruct (strict_message_ok m SM) as [OK BC]. assert (PT : dc = true -> true = true -> plain_tables m) by (intros _ _; now apply ordinary_tables).
    destruct (decode m data dc true len len) as [d|x] eqn:D.
    - destruct (decode_spec m OK BC dc true PT data len len d BO D) as (DD & L1 & L2). split; [intros N; destruct (Z.lt_ge_cases (zlen data) (m_length m)); [auto|apply L2; lia]|].
      exists (pairs_of d (m_signals m)), (format_signals float_text unit_of m d). split; [|split; [|split; [apply pairs_items|apply format_listing]]].
      + assert (ND := pairs_keys d (m_signals m) (mo_names _ OK)). apply (decoded_ext m data dc true d); [exact DD| |exact ND].
        intros k. destruct (sget d k) as [v|] eqn:G.
        * destruct (dd_only _ _ _ _ _ DD k v G) as (s & A & _ & <-). apply (in_get _ sspec); [exact ND|]. apply in_map_iff. exists (s, v). split; [reflexivity|]. apply pairs_in. split; [now apply active_in in A|exact G].
        * destruct (sget (map (fun p : signal * value => (s_name (fst p), snd p)) (pairs_of d (m_signals m))) k) as [v|] eqn:H; [|reflexivity]. apply (get_in _ sspec) in H. apply in_map_iff in H. destruct H as ([s w] & E & I). cbn in E. injection E as <- <-. apply pairs_in in I. destruct I. congruence.
      + exists (fun s => match sget d (s_name s) with Some _ => true | None => false end). apply pairs_filter.
    - split; [now apply (C65_message _ _ _ _ _ _ _ SM OS BO D)|]. destruct len.
      + right. intros out H. destruct (decode_complete m OK BC dc true PT data true true out BO (fun _ => eq_refl) (fun _ => eq_refl) H) as [o E]. congruence.
      + destruct (Z.eq_dec (zlen data) (m_length m)) as [E|N]; [|now left]. right. intros out H.
        destruct (decode_complete m OK BC dc true PT data false false out BO ltac:(lia) ltac:(lia) H) as [o F]. congruence.
  Qed.

  (** Containers *)
  Lemma hex_not_space c : hex_any c = true -> is_space c = false /\ Ascii.eqb c "010" = false.
  Proof. destruct c as [[] [] [] [] [] [] [] []]; vm_compute; intros H; try discriminate H; split; reflexivity. Qed.
  Lemma indent_shifted l : indent_lines l = shifted l.
  Proof. unfold indent_lines, shifted. apply flat_map_ext. intros c. destruct (Ascii.eqb_spec c "010") as [->|]; reflexivity. Qed.
  Lemma strip_ends_id a l b : is_space a = false -> is_space b = false -> strip_space (a :: l ++ [b]) = a :: l ++ [b].
  Proof.
    intros A B. unfold strip_space. cbn [drop_while]. rewrite A. change (a :: l ++ [b]) with ((a :: l) ++ [b]). rewrite rev_app_distr. cbn [rev app drop_while]. rewrite B.
    change (b :: rev l ++ [a]) with ([b] ++ (rev l ++ [a])). rewrite rev_app_distr, rev_app_distr, rev_involutive. reflexivity.
  Qed.
  Lemma multi_ends name items : exists r, message_multi name items = r ++ txt ")".
  Proof.
    unfold message_multi. exists (nl ++ txt name ++ txt "(" ++ nl ++ join (txt "," ++ nl) (map (fun i => txt "    " ++ i) items) ++ nl). now rewrite !app_assoc.
  Qed.
  Lemma contained_stripped id rest name items : 0 <= id ->
    strip_space (indent_lines (hex_text 6 id ++ rest ++ message_multi name items)) = shifted (hex_text 6 id ++ rest ++ message_multi name items).
  Proof.
    intros P. destruct (hex_text_number 6 id P) as (_ & L & H). destruct (hex_text 6 id) as [|c h]; [cbn in L; lia|]. cbn [forallb] in H. apply andb_true_iff in H as [H _]. destruct (hex_not_space c H) as [S N].
    destruct (multi_ends name items) as [r ->]. rewrite indent_shifted. unfold shifted. rewrite (app_assoc rest), (app_assoc (c :: h)). rewrite flat_map_app. change (flat_map _ (txt ")")) with [")"%char]. cbn [app flat_map]. rewrite N. cbn [app]. now apply strip_ends_id.
  Qed.

  Definition piece_ok (c : container) (y : (Z + contained) * list Z) : Prop :=
    bytes_ok (snd y) /\ match fst y with inl id => 0 <= id | inr x => In x (cn_contained c) /\ exists id, ct_header x = Some id /\ 0 <= id end.
  Lemma unpack_pieces c at_ : forall fuel data out, unpack_loop fuel c data at_ = Ok out -> bytes_ok data -> Forall (piece_ok c) out.
  Proof.
    induction fuel as [|fuel IH]; intros data out H BO; [discriminate|]. cbn [unpack_loop] in H.
    destruct data as [|a [|b [|d [|len rest]]]]; try (apply Ok_inj in H; subst out; constructor).
    apply bind_ok in H. destruct H as (len' & _ & H). apply bind_ok in H. destruct H as (o & O & H). apply bind_ok in H. destruct H as (tl & T & H). apply Ok_inj in H. subst out.
    assert (BR : bytes_ok rest) by (do 4 apply Forall_inv_tail in BO; exact BO).
    assert (ID : 0 <= from_be [a; b; d]).
    { apply from_be_bound. unfold bytes_ok in BO |- *. rewrite Forall_forall in BO. apply Forall_forall. intros y Y. apply BO. cbn in Y |- *. tauto. }
    constructor.
    - split; cbn [fst snd].
      + apply Forall_forall. intros y Y. unfold slice in Y. unfold bytes_ok in BR. rewrite Forall_forall in BR. apply BR. apply (sub_in (Z.to_nat 0)). right. apply (sub_in (Z.to_nat (len' - 0))). now left.
      + destruct o as [y|]; [|exact ID]. split; [now apply by_header_in in O|]. exists (from_be [a; b; d]). split; [|exact ID].
        unfold by_header_id in O. destruct (filter _ (cn_contained c)) as [|z [|? ?]] eqn:F; try discriminate. injection O as ->.
        assert (I : In y [y]) by now left. rewrite <- F in I. apply filter_In in I. destruct I as [_ I]. destruct (ct_header y) as [h|]; [|discriminate]. cbn in I. apply Z.eqb_eq in I. now subst.
    - apply (IH _ _ T). apply Forall_forall. intros y Y. unfold bytes_ok in BR. rewrite Forall_forall in BR. apply BR. apply (sub_in (Z.to_nat len')). now right.
  Qed.
  Definition contained_text (single : bool) (p : ((Z + contained) * list Z) * ((Z + contained) * payload)) : chars :=
    if single then contained_single float_text unit_of (fst p) (snd p) else contained_multi float_text unit_of (fst p) (snd p).
  Lemma items_text c dc len single : Forall (fun x => strict_message (ct_msg x) /\ Forall ordinary (m_signals (ct_msg x))) (cn_contained c) ->
    forall u d, Forall (piece_ok c) u -> decode_items u dc true len len = Ok d ->
    Forall2 (contained_shown float_text unit_of dc len single) u (map (contained_text single) (combine u d)).
  Proof.
    intros CS. rewrite Forall_forall in CS. intros u d P. revert d. induction P as [|[h body] u [B H] P IH]; intros d D; [constructor|]. cbn [decode_items] in D. cbn [fst snd] in B, H.
    destruct h as [id|x].
    - apply bind_ok in D. destruct D as (tl & T & D). apply Ok_inj in D. subst d. cbn [combine map]. constructor; [|now apply IH].
      destruct single; cbn [contained_text contained_single contained_multi fst snd]; [apply cs_unknown_single|apply cs_unknown_multi]; auto using hex_text_number, bytes_hex_spec.
    - destruct H as (I & id & ID & NN). destruct (CS x I) as [SM OS]. pose proof (message_text (ct_msg x) body dc len single SM OS B) as MT.
      destruct (decode (ct_msg x) body dc true len len) as [r|e].
      + cbn [bind] in D. apply bind_ok in D. destruct D as (tl & T & D). apply Ok_inj in D. subst d. cbn [combine map]. constructor; [|now apply IH].
        destruct single; cbn [contained_text contained_single contained_multi fst snd]; [apply cs_good_single; exact MT|].
        unfold header_of. rewrite ID. rewrite (app_assoc (txt "##")), (app_assoc (txt "##" ++ _)). rewrite contained_stripped by exact NN. rewrite <- !app_assoc.
        apply cs_good_multi with id; auto using hex_text_number, bytes_hex_spec.
      + destruct MT as [-> U]. cbn [bind] in D. apply bind_ok in D. destruct D as (tl & T & D). apply Ok_inj in D. subst d. cbn [combine map]. constructor; [|now apply IH].
        destruct single; cbn [contained_text contained_single contained_multi fst snd]; [apply cs_bad_single; auto using bytes_hex_spec|].
        unfold header_of. rewrite ID. apply cs_bad_multi with id; auto using hex_text_number, bytes_hex_spec.
  Qed.

  (** * Frames *)
  Lemma found_by_id db id e : ordinary_database db -> get_message_by_frame_id db id false = Ok e -> ordinary_entry e.
  Proof.
    intros [I _] H. rewrite Forall_forall in I. unfold get_message_by_frame_id, zget_exn in H. destruct (zget (db_by_id db) _) as [x|] eqn:E; [|discriminate]. apply Ok_inj in H. subst x. apply (get_in _ zspec) in E. apply I. apply (in_map snd) in E. exact E.
  Qed.
  Lemma frame_text db o id data : ordinary_database db -> bytes_ok data ->
    exists t, format_frame float_text unit_of explain db id data o = Ok t /\ (0 <= id -> annotation float_text unit_of db o id data t).
  Proof.
    intros OD BO. unfold format_frame. destruct (get_message_by_frame_id db id false) as [e|x] eqn:G.
    - destruct (found_by_id db id e OD G) as (SM & OS & OC). destruct (is_container (e_container e)) eqn:IC.
      + assert (NE : e_contained e <> []) by (intros E; unfold is_container, e_container in IC; cbn in IC; rewrite E in IC; discriminate). specialize (OC NE).
        destruct (o_containers o) eqn:CO; [|eexists; split; [reflexivity|]; intros P; apply an_box with e; auto using hex_text_number].
        unfold format_container. pose proof (C65_container (e_container e) data (o_choices o) true (o_lenient o) (o_lenient o)) as CE. unfold decode_container in CE |- *. rewrite IC in CE |- *. cbn [negb] in CE |- *.
        destruct (unpack_container (e_container e) data (o_lenient o)) as [u|x] eqn:U.
        * cbn [bind] in CE |- *. destruct (decode_items u (o_choices o) true (o_lenient o) (o_lenient o)) as [d|x] eqn:D.
          2:{ exfalso. clear CE. destruct OC as [_ CS]. unfold unpack_container in U. rewrite IC in U. cbn [negb] in U. destruct (cn_length (e_container e) <? zlen data); [discriminate|].
              apply unpacked_contained in U; [|exact BO]. rewrite Forall_forall in CS. revert D. clear -U CS. revert x. induction U as [|[[id|x] body] l [B X] L IH]; intros e' H; cbn [decode_items] in H; [discriminate| |].
              - destruct (decode_items l (o_choices o) true (o_lenient o) (o_lenient o)); [discriminate|]. eapply IH. reflexivity.
              - destruct (CS x (X x eq_refl)) as [SM OS]. cbn [snd] in B. pose proof (C65_message (ct_msg x) body (o_choices o) true (o_lenient o) (o_lenient o)) as M.
                destruct (decode (ct_msg x) body (o_choices o) true (o_lenient o) (o_lenient o)) as [d|e''].
                + cbn [bind] in H. destruct (decode_items l (o_choices o) true (o_lenient o) (o_lenient o)); [discriminate|]. eapply IH. reflexivity.
                + specialize (M e'' SM OS B eq_refl). subst e''. cbn [bind] in H. destruct (decode_items l (o_choices o) true (o_lenient o) (o_lenient o)); [discriminate|]. eapply IH. reflexivity. }
          cbn [bind]. assert (PC : Forall (piece_ok (e_container e)) u).
          { unfold unpack_container in U. rewrite IC in U. cbn [negb] in U. destruct (cn_length (e_container e) <? zlen data); [discriminate|]. now apply unpack_pieces in U. }
          pose proof (items_text (e_container e) (o_choices o) (o_lenient o) (o_single o) (proj2 OC) u d PC D) as IT.
          destruct (o_single o) eqn:SG; (eexists; split; [reflexivity|]); intros _; apply an_container with e u (map (contained_text (o_single o)) (combine u d)); auto; rewrite SG; try exact IT; cbn [listing]; eexists; (split; [apply join_separated|reflexivity]).
        * cbn [bind] in CE |- *. specialize (CE x OC BO eq_refl). subst x. eexists. split; [reflexivity|]. intros _. now apply an_bad_container with e.
      + assert (NE : e_contained e = []) by (unfold is_container, e_container in IC; cbn in IC; destruct (e_contained e); [reflexivity|discriminate]).
        pose proof (message_text (e_msg e) data (o_choices o) (o_lenient o) (o_single o) SM OS BO) as MT.
        destruct (decode (e_msg e) data (o_choices o) true (o_lenient o) (o_lenient o)) as [d|x].
        * eexists. split; [reflexivity|]. intros _. now apply an_message with e.
        * destruct MT as [-> U]. eexists. split; [reflexivity|]. intros _. now apply an_bad with e.
    - assert (x = KeyError) as ->. { unfold get_message_by_frame_id, zget_exn in G. destruct (zget (db_by_id db) _); congruence. }
      eexists. split; [reflexivity|]. intros P. apply an_unknown; [exact G|now apply hex_text_number].
  Qed.

  (** * Files *)
  Lemma frames_bytes keep : forall lines st, Forall (fun y => match snd y with Some f => bytes_ok (df_data f) | None => True end) (fst (iterlines st keep lines)).
  Proof.
    induction lines as [|l lines IH]; intros st; [constructor|]. cbn [iterlines]. destruct l as [|a l]; [constructor|]. pose proof (parse_frame st (strip (a :: l))) as PF.
    destruct (parse st (strip (a :: l))) as [st' [f|x]]; [|constructor]. specialize (IH st'). destruct (iterlines st' keep lines) as [ys e]. cbn [fst] in IH |- *. destruct f as [f|].
    - constructor; [|exact IH]. cbn [snd]. now apply PF.
    - destruct keep; [constructor; [exact I|exact IH]|exact IH].
  Qed.
  Lemma print_all db o : ordinary_database db -> forall ys e, Forall (fun y => match snd y with Some f => bytes_ok (df_data f) | None => True end) ys ->
    exists outs, print_lines float_text unit_of explain db o ys e = (outs, e) /\
      Forall2 (fun y out => match snd y with
                            | None => out = fst y
                            | Some f => exists t, out = fst y ++ txt " ::" ++ t /\ (0 <= df_id f -> annotation float_text unit_of db o (df_id f) (df_data f) t)
                            end) ys outs.
  Proof.
    intros OD ys e H. induction H as [|[l f] ys B H (outs & P & F)]; [exists []; split; [reflexivity|constructor]|]. cbn [print_lines]. cbn [snd] in B. destruct f as [f|].
    - destruct (frame_text db o (df_id f) (df_data f) OD B) as (t & E & A). rewrite E. cbn [bind]. rewrite P. eexists. split; [reflexivity|]. constructor; [|exact F]. cbn [fst snd]. eauto.
    - rewrite P. eexists. split; [reflexivity|]. constructor; [reflexivity|exact F].
  Qed.

  (** The command ends with the exception that ends the log reader, if any, and prints every line that was read: as it is if it is no
      frame, and otherwise followed by " ::" and a text. *)
  Theorem C66_lines db o lines : ordinary_database db ->
    exists outs, decode_command float_text unit_of explain db o lines = (outs, snd (iterlines None true lines)) /\
      Forall2 (fun y out => match snd y with None => out = fst y | Some f => exists t, out = fst y ++ txt " ::" ++ t end) (fst (iterlines None true lines)) outs.
  Proof.
    intros OD. pose proof (frames_bytes true lines None) as B. unfold decode_command. destruct (iterlines None true lines) as [ys e]. cbn [fst snd] in *.
    destruct (print_all db o OD ys e B) as (outs & P & F). exists outs. split; [exact P|]. clear -F. induction F as [|[l [f|]] out ys outs P F IH]; constructor; auto. destruct P as (t & T & _). exists t. exact T.
  Qed.

  (** One line is printed for each line that is read. *)
  Theorem C66_one_per_line db o ls : ordinary_database db -> Forall (fun x => plain_line (fst x) /\ line_end (snd x)) ls ->
    snd (iterlines None true (map (fun x => fst x ++ snd x) ls)) = None ->
    exists outs, decode_command float_text unit_of explain db o (map (fun x => fst x ++ snd x) ls) = (outs, None) /\
      Forall2 (fun x out => exists rest, out = fst x ++ rest /\ (rest = [] \/ exists t, rest = txt " ::" ++ t)) ls outs.
  Proof.
    intros OD H N. destruct (C66_lines db o (map (fun x => fst x ++ snd x) ls) OD) as (outs & D & F). rewrite N in D. exists outs. split; [exact D|]. clear D.
    assert (G : forall st, snd (iterlines st true (map (fun x => fst x ++ snd x) ls)) = None -> map fst (fst (iterlines st true (map (fun x => fst x ++ snd x) ls))) = map fst ls).
    { clear -H. induction H as [|[l x] ls [P E] H IH]; intros st; [reflexivity|]. cbn [map fst snd] in *.
      assert (S1 := strip_ends l x (plain_spec l P) (end_spec x E)).
      destruct (l ++ x) as [|a r] eqn:Q; [exfalso; apply app_eq_nil in Q; destruct E as [E _]; tauto|]. cbn [iterlines]. rewrite S1. destruct (parse st l) as [st' [f|y]]; [|discriminate].
      specialize (IH st'). destruct (iterlines st' true (map (fun x0 => fst x0 ++ snd x0) ls)) as [ys e]. cbn [fst snd] in *. intros E'. specialize (IH E'). destruct f; cbn [map fst]; now rewrite IH. }
    specialize (G None N). revert F G. generalize (fst (iterlines None true (map (fun x => fst x ++ snd x) ls))) as ys. clear. intros ys F. revert ls. induction F as [|[l f] out ys outs P F IH]; intros ls G.
    - destruct ls; [constructor|discriminate].
    - destruct ls as [|[k x] ls]; [discriminate|]. injection G as -> G. constructor; [|now apply IH]. cbn [fst snd] in *. destruct f as [f|].
      + destruct P as [t ->]. exists (txt " ::" ++ t). split; [reflexivity|]. right. eauto.
      + subst out. exists []. split; [now rewrite app_nil_r|now left].
  Qed.

  (** A file of candump lines: what is printed for each of them *)
  Definition printed (db : database) (o : options) (e : chars * columns * cpayload) (out : chars) : Prop :=
    match snd e with
    | CError _ _ => out = candump_line e
    | CData l _ => exists t, out = candump_line e ++ txt " ::" ++ t /\ annotation float_text unit_of db o (co_id (snd (fst e))) (map fst l) t
    | CRemote _ _ => exists t, out = candump_line e ++ txt " ::" ++ t /\ annotation float_text unit_of db o (co_id (snd (fst e))) [] t
    end.
  Definition candump_entry (e : chars * columns * cpayload) : Prop :=
    forallb is_space (fst (fst e)) = true /\ columns_ok (snd (fst e)) /\ cp_ok (snd e) /\ plain_line (candump_line e).
  Theorem C66_candump db o es : ordinary_database db -> Forall candump_entry es ->
    exists outs, decode_command float_text unit_of explain db o (map (fun e => candump_line e ++ lf) es) = (outs, None) /\ Forall2 (printed db o) es outs.
  Proof.
    intros OD H.
    assert (G : forall st, st = None \/ st = Some PDefault ->
      iterlines st true (map (fun e => candump_line e ++ lf) es) = (map (fun e => (candump_line e, cp_frame (snd (fst e)) (snd e) TMissing [])) es, None)).
    { clear OD. induction H as [|[[w c] p] es (W & C & P & L) H IH]; intros st ST; [reflexivity|]. cbn [map fst snd] in *.
      assert (S : strip (candump_line (w, c, p) ++ lf) = candump_line (w, c, p)) by (apply strip_ends; [apply plain_spec; exact L|reflexivity]).
      assert (PR : parse st (candump_line (w, c, p)) = (Some PDefault, Ok (cp_frame c p TMissing []))).
      { pose proof (C42_candump w c p W C P) as PN; unfold candump_line. destruct ST as [ -> | -> ]; [exact PN|]. unfold parse in PN |- *; injection PN as -> PN; rewrite PN; reflexivity. }
      destruct (candump_line (w, c, p) ++ lf) as [|x l] eqn:EL; [exfalso; apply app_eq_nil in EL; destruct EL; discriminate|].
      cbn [iterlines]; rewrite S, PR, IH by auto. destruct (cp_frame c p TMissing []); reflexivity. }
    pose proof (frames_bytes true (map (fun e => candump_line e ++ lf) es) None) as B. unfold decode_command. rewrite (G None) in B |- * by auto. cbn [fst] in B.
    destruct (print_all db o OD _ None B) as (outs & P & F). exists outs. split; [exact P|]. clear P B G. revert outs F. induction H as [|[[w c] p] es (W & C & P & L) H IH]; intros outs F; inversion F; subst; constructor.
    - unfold printed. cbn [fst snd] in *. assert (0 <= co_id c) by (destruct C as (_ & _ & I & _); unfold candump_id_ok in I; destruct (co_ext c); lia).
      destruct p; cbn [cp_frame df_id df_data] in *; [destruct H2 as (u & T & A); exists u; auto|destruct H2 as (u & T & A); exists u; auto|assumption].
    - now apply IH.
  Qed.
End Main.

(** * Examples *)
Definition no_float (f : spec_float) : chars := txt "?".
Definition kmh (s : signal) : option chars := if String.eqb (s_name s) "Speed" then Some (txt "km/h") else None.
Definition sorry (e : entry) (d : list Z) : chars := txt "error".
Definition run_ex := decode_command no_float kmh sorry ex_db.

Definition one_line := mkOptions true true true false.
Definition ex_cols (ext : bool) (id : Z) : columns := mkColumns (txt "can0") (txt "  ") ext id (txt "   ") (txt "8") (txt "  ").
Definition ex_pay : cpayload := CData [(18, 1%nat); (0, 1%nat); (16, 1%nat); (0, 1%nat); (4, 1%nat); (0, 1%nat); (0, 1%nat); (0, 0%nat)] [].
Definition ex_lines : list (chars * columns * cpayload) := [(txt "  ", ex_cols false 0x123, ex_pay); ([], ex_cols false 0x124, CRemote [] []); ([], ex_cols true 0x80000005, ex_pay)].
Lemma ex_db_ordinary : ordinary_database ex_db.
Proof. exact (proj1 C65_hypotheses). Qed.
Example C66_hypotheses : ordinary_database ex_db /\ Forall candump_entry ex_lines /\
  run_ex one_line (map (fun e => candump_line e ++ lf) ex_lines) =
  ([txt "  can0  123   [8]  12 00 10 00 04 00 00 00 :: Ex(Mux: 2, State: On, Speed: 7 km/h, C: 128, F: ?)";
    txt "can0  124   [8]  remote request :: Unknown frame id 292 (0x124)";
    txt "can0  80000005   [8]  12 00 10 00 04 00 00 00 :: Box((Unknown contained message: Header ID: 0x120010, Data: ), (Unknown contained message: Header ID: 0x40000, Data: ))"], None).
Proof.
  split; [exact ex_db_ordinary|]. split; [|vm_compute; reflexivity].
  assert (PL : forall l, forallb (fun c => negb (cr_lf c)) l = true -> plain_line l).
  { intros l H. unfold plain_line. apply Forall_forall. intros c I E. rewrite forallb_forall in H. specialize (H c I). apply end_char_spec in E. rewrite E in H. discriminate H. }
  repeat (apply Forall_cons; [split; [vm_compute; reflexivity|]; split; [unfold columns_ok, run, blank; vm_compute; repeat split; discriminate|]; split; [|apply PL; vm_compute; reflexivity]|]); [| | |constructor];
    cbn; split; try reflexivity; try (now left); repeat constructor; vm_compute; try discriminate; reflexivity.
Qed.
Example C66_one_per_line_hypotheses : let ls := [(txt "can0  123   [8]  12 00 10 00 04 00 00 00", lf); (txt "hello", lf)] in
  Forall (fun x => plain_line (fst x) /\ line_end (snd x)) ls /\ snd (iterlines None true (map (fun x => fst x ++ snd x) ls)) = None.
Proof.
  assert (PL : forall l, forallb (fun c => negb (cr_lf c)) l = true -> plain_line l).
  { intros l H. unfold plain_line. apply Forall_forall. intros c I E. rewrite forallb_forall in H. specialize (H c I). apply end_char_spec in E. rewrite E in H. discriminate H. }
  assert (LF : line_end lf) by (split; [discriminate|constructor; [now right|constructor]]).
  cbn zeta. split; [|vm_compute; reflexivity]. repeat (apply Forall_cons; [split; [apply PL; vm_compute; reflexivity|exact LF]|]). constructor.
Qed.
(** A multi line listing with a container *)
Example ex_multi : run_ex (mkOptions true false true false) [txt "can0  80000005   [19]  00 00 0A 08 02 00 10 00 04 00 00 00 00 00 14 03 00 01 02" ++ lf] =
  ([txt "can0  80000005   [19]  00 00 0A 08 02 00 10 00 04 00 00 00 00 00 14 03 00 01 02 ::
Box(
    00000a##0200100004000000 ::
    Ex(
        Mux: 2,
        State: Off,
        Speed: 7 km/h,
        C: 128,
        F: ?
    ),
    000014##000102 ::
    Unknown contained message
)"], None).
Proof. vm_compute. reflexivity. Qed.

(** An extended frame with an id up to 0x7FF is shown as the standard message with that id, and a message of the database with an
    extended id up to 0x7FF is reported as unknown: the command looks up the id without the frame format. *)
Theorem C66_extended_refuted :
  (exists st f, parse None (txt "can0  00000123   [8]  12 00 10 00 04 00 00 00") = (st, Ok (Some f)) /\ df_ext f = true /\ df_id f = 0x123) /\
  (forall e, In e (db_messages ex_db) -> m_extended (e_msg e) = true -> m_frame_id (e_msg e) <> 0x123) /\
  run_ex one_line [txt "can0  00000123   [8]  12 00 10 00 04 00 00 00" ++ lf] =
    ([txt "can0  00000123   [8]  12 00 10 00 04 00 00 00 :: Ex(Mux: 2, State: On, Speed: 7 km/h, C: 128, F: ?)"], None) /\
  (exists e, In e (db_messages ex_db) /\ m_extended (e_msg e) = true /\ m_frame_id (e_msg e) = 5) /\
  run_ex one_line [txt "can0  00000005   [0] " ++ lf] = ([txt "can0  00000005   [0]  :: Unknown frame id 5 (0x5)"], None).
Proof.
  split; [|split; [|split; [|split]]].
  - eexists _, _. split; [vm_compute; reflexivity|]. split; reflexivity.
  - intros e [<-|[<-|[]]]; vm_compute; discriminate.
  - vm_compute. reflexivity.
  - exists (mkEntry box_msg true [ex_contained; flat_contained]). split; [right; now left|]. split; vm_compute; reflexivity.
  - vm_compute. reflexivity.
Qed.

(** A NaN in a float signal with a value table ends the command. *)
Definition nan_db : database :=
  let a := mkEntry float_table_msg true [] in mkDatabase [a] [("Ex", a)] [(291, a)] 0xffffffff true.
Theorem C66_crash_refuted : strict_message float_table_msg /\
  decode_command no_float kmh sorry nan_db one_line (map (fun l => txt l ++ lf) ["can0  123   [4]  00 00 00 00"; "can0  123   [4]  00 00 C0 7F"; "can0  123   [4]  00 00 00 00"]) =
  ([txt "can0  123   [4]  00 00 00 00 :: Ex(State: Off)"], Some ValueError).
Proof. split; [exact (proj1 C65_float_table_refuted)|vm_compute; reflexivity]. Qed.
