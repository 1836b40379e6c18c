(** SymProofs: the database that is read from the SYM file that is written for a database. *)
From Coq Require Import Ascii Permutation.
From Verif Require Import Base CSource CNames DictLemmas Regex DecText DbcToken DbcLex DbcStmt DbcPieces DbcDump DbcLoad DbcTables DbcFit DbcWrite Logreader LogSpec LogProofs Draw DrawProofs.
From Verif Require Kcd KcdProofs.
From Verif Require Import SymToken SymStmt Sym SymRows.
Import Kcd(flip, num_is, multiplexed_by, default).
Local Open Scope string_scope.
Local Open Scope Z_scope.
Local Open Scope list_scope.
Notation txt := DbcToken.txt.

Section View.
Context {FL : Floats} {LW : FloatLaws FL}.
Implicit Types (s : dsignal) (m : dmessage) (db : database).

(** ** What is kept *)
Definition view_text (t : option chars) : option chars := match t with Some [] => None | t => t end.
Definition view_choices (c : option (list (Z * chars))) : option (list (Z * chars)) := match c with Some [] => None | c => c end.
Definition view_num (n : num) (z : Z) : num := if num_is n z then DInt z else n.
Definition view_aval (v : option aval) : option aval := match v with Some v => if aval_true v then Some v else None | None => None end.
Definition view_signal s : dsignal :=
  DSignal (s_name s) (s_start s) (s_length s) (s_big s) (s_signed s && negb (s_float s)) None (view_num (s_scale s) 1) (view_num (s_offset s) 0) (s_float s)
    (view_choices (s_choices s)) (s_min s) (s_max s) (view_text (s_unit s)) (view_text (s_comment s)) [] false (s_mux_ids s) (s_mux_signal s) (view_aval (s_spn s)) [].
Definition view_mux s : dsignal :=
  DSignal (s_name s) (s_start s) (s_length s) (s_big s) false None (DInt 1) (DInt 0) false None None None None None [] true None None None [].
Definition view_senders (l : list chars) : list chars :=
  match l with
  | [n] => if chars_eqb n (txt "ECU") || chars_eqb n (txt "Peripherals") then [n] else [txt "ECU"; txt "Peripherals"]
  | _ => [txt "ECU"; txt "Peripherals"]
  end.

(** ** The databases that can be written and read back *)
Definition sym_num (n : num) : bool := num_ok n && decimal_token (num_text n).
Definition sym_opt (n : option num) : bool := match n with Some n => sym_num n | None => true end.
Definition comment_fit (c : option chars) : bool :=
  match c with Some t => no_newline t && negb (Ascii.eqb (last t " "%char) "013") | None => true end.
Definition sym_signal s : bool :=
  plain_text (s_name s) && (zlen (s_name s) <=? 32) && (negb (s_float s) || (s_length s =? 32) || (s_length s =? 64)) &&
  sym_num (s_scale s) && sym_num (s_offset s) && sym_opt (s_min s) && sym_opt (s_max s) && match s_unit s with Some u => body_ok u | None => true end &&
  comment_fit (s_comment s) && match s_spn s with None | Some (AInt _) => true | _ => false end &&
  match choices_of s with [] => true | l => sym_word (enum_name s) && forallb (fun p => plain_text (snd p)) l && nodup_by Z.eqb (map fst l) end.
(** The hexadecimal text of the number starts with a decimal digit. *)
Definition decimal_lead (i : Z) : Prop := i = 0 \/ exists d k, 0 <= k /\ 1 <= d <= 9 /\ d * 16 ^ k <= i < (d + 1) * 16 ^ k.
(** A message without multiplexing, or with one multiplexer that selects all other signals, each by one number *)
Definition plain_signal s : Prop := s_is_mux s = false /\ s_mux_ids s = None /\ s_mux_signal s = None.
Definition plain_message m : Prop := forall s, In s (m_signals m) -> plain_signal s.
Definition selected_by (x s : dsignal) : Prop := s_is_mux s = false /\ s_mux_signal s = Some (s_name x) /\ exists i, s_mux_ids s = Some [i] /\ decimal_lead i.
Definition mux_message m (x : dsignal) : Prop :=
  In x (m_signals m) /\ NoDup (m_signals m) /\ s_is_mux x = true /\ s_mux_ids x = None /\ s_mux_signal x = None /\ s_name x <> [] /\
  (forall s, In s (m_signals m) -> s = x \/ selected_by x s) /\ (forall i, In i (map fst (choices_of x)) -> decimal_lead i) /\
  ((exists s, In s (m_signals m) /\ s <> x) \/ choices_of x <> []).
Definition sym_message m : bool :=
  plain_text (m_name m) && (0 <=? m_id m) && (m_id m <? (if m_extended m then 2 ^ 29 else 2 ^ 11)) && comment_fit (m_comment m) &&
  match m_cycle_time m with None => true | Some (AInt _) => true | Some (AFloat f) => sym_num (DFloat f) | Some (AStr _) => false end &&
  forallb sym_signal (m_signals m).
(** Signals of the same name are the same but for their place. *)
Definition same_row (a b : dsignal) : Prop :=
  s_length a = s_length b /\ s_big a = s_big b /\ s_signed a = s_signed b /\ s_scale a = s_scale b /\ s_offset a = s_offset b /\ s_float a = s_float b /\
  s_choices a = s_choices b /\ s_min a = s_min b /\ s_max a = s_max b /\ s_unit a = s_unit b /\ s_comment a = s_comment b /\ s_spn a = s_spn b.
Definition same_but_id (a b : dmessage) : Prop :=
  m_extended a = m_extended b /\ m_length a = m_length b /\ m_senders a = m_senders b /\ m_cycle_time a = m_cycle_time b /\ m_comment a = m_comment b /\ m_signals a = m_signals b.
Definition signals_of db : list dsignal := flat_map m_signals (db_messages db).
Record sym_fit db : Prop := {
  fit_messages : forallb sym_message (db_messages db) = true;
  fit_muxes : forall m, In m (db_messages db) -> plain_message m \/ exists x, mux_message m x;
  fit_same_signals : forall a b, In a (signals_of db) -> In b (signals_of db) -> s_name a = s_name b -> same_row a b;
  fit_enums : forall a b, In a (signals_of db) -> In b (signals_of db) -> choices_of a <> [] -> choices_of b <> [] -> enum_name a = enum_name b -> s_choices a = s_choices b;
  fit_ids : NoDup (map (fun m => (m_name m, m_id m)) (db_messages db));
  fit_same_messages : forall a b, In a (db_messages db) -> In b (db_messages db) -> m_name a = m_name b -> same_but_id a b;
  fit_ranges : forall a b i, In a (db_messages db) -> In b (db_messages db) -> m_name a = m_name b -> m_id a <= i <= m_id b ->
    exists c, In c (db_messages db) /\ m_name c = m_name a /\ m_id c = i;
  fit_single : forall a b, In a (db_messages db) -> In b (db_messages db) -> m_name a = m_name b -> plain_message a \/ m_id a = m_id b }.

(** ** Hexadecimal numbers *)
Lemma hex_bound w z : 0 <= z -> z < 16 ^ Z.of_nat (Nat.max w (hex_digits z)).
Proof.
  intros H. unfold hex_digits. rewrite Nat2Z.inj_max. pose proof (Z.log2_nonneg z) as LN. pose proof (Z.div_pos (Z.log2 z) 4 LN ltac:(lia)) as DN. rewrite Z2Nat.id by lia.
  destruct (Z.eq_dec z 0) as [->|NZ]; [apply Z.pow_pos_nonneg; lia|].
  apply Z.lt_le_trans with (16 ^ (Z.log2 z / 4 + 1)); [|apply Z.pow_le_mono_r; lia].
  destruct (Z.log2_spec z ltac:(lia)) as [_ U]. change 16 with (2 ^ 4). rewrite <- Z.pow_mul_r by lia.
  apply Z.lt_le_trans with (1 := U). apply Z.pow_le_mono_r; [lia|]. pose proof (Z.div_mod (Z.log2 z) 4 ltac:(lia)). pose proof (Z.mod_pos_bound (Z.log2 z) 4 ltac:(lia)). lia.
Qed.
Lemma hex_head n : forall z, exists t, hex_fixed (S n) z = hexdigit (z / 16 ^ Z.of_nat n mod 16) :: t.
Proof.
  induction n as [|n IH]; intros z.
  - exists []. cbn. now rewrite Z.div_1_r.
  - destruct (IH (z / 16)) as (t & E). exists (t ++ [hexdigit (z mod 16)]). change (hex_fixed (S (S n)) z) with (hex_fixed (S n) (z / 16) ++ [hexdigit (z mod 16)]). rewrite E. cbn [app].
    f_equal. f_equal. f_equal. rewrite Z.div_div by (try apply Z.pow_pos_nonneg; lia). f_equal. rewrite Nat2Z.inj_succ, Z.pow_succ_r by lia. reflexivity.
Qed.
Lemma hex_digits_le z w : 0 <= z < 16 ^ Z.of_nat w -> (0 < w)%nat -> (hex_digits z <= w)%nat.
Proof.
  intros [H L] W. unfold hex_digits. pose proof (Z.log2_nonneg z) as LN. assert (Z.log2 z / 4 < Z.of_nat w); [|lia].
  apply Z.div_lt_upper_bound; [lia|]. destruct (Z.eq_dec z 0) as [->|NZ]; [change (Z.log2 0) with 0; lia|]. apply Z.log2_lt_pow2; [lia|]. change 16 with (2 ^ 4) in L. rewrite <- Z.pow_mul_r in L by lia. exact L.
Qed.
Lemma hex_pad_read w z : 0 <= z -> forallb hex_upper (hex_pad w z) = true /\ hex_int (hex_pad w z) = z /\ hex_pad w z <> [].
Proof.
  intros H. unfold hex_pad. destruct (Z.ltb_spec z 0); [lia|]. split; [apply hex_fixed_upper|]. split; [apply hex_int_fixed; split; [lia|now apply hex_bound]|].
  intros E. pose proof (hex_fixed_length (Nat.max w (hex_digits z)) z) as L. rewrite E in L. cbn in L.
  assert (0 < hex_digits z)%nat by (unfold hex_digits; pose proof (Z.div_pos (Z.log2 z) 4 (Z.log2_nonneg z) ltac:(lia)); lia). lia.
Qed.
Lemma hex_of_pad w z : 0 <= z -> hex_of (hex_pad w z) = Ok z.
Proof.
  intros H. destruct (hex_pad_read w z H) as (U & V & N). destruct (hex_pad w z) as [|c r] eqn:E; [congruence|]. unfold hex_of.
  assert (C : Ascii.eqb c "-" = false). { cbn [forallb] in U. apply andb_true_iff in U. destruct U as [U _]. revert U. clear. destruct c as [[] [] [] [] [] [] [] []]; vm_compute; congruence. }
  rewrite C. unfold unsigned_hex_of. rewrite (forallb_weaken hex_upper hex_any); [now rewrite V| |exact U]. intros x. destruct x as [[] [] [] [] [] [] [] []]; vm_compute; congruence.
Qed.
Definition digit_first (t : chars) : Prop := match t with c :: _ => is_digit c = true | [] => False end.
Lemma pad_first n z k : hexdigit (z / 16 ^ Z.of_nat n mod 16) = k -> is_digit k = true -> digit_first (hex_fixed (S n) z).
Proof. intros <- D. destruct (hex_head n z) as (t & ->). exact D. Qed.
Lemma id_first m i : 0 <= i < (if m_extended m then 2 ^ 29 else 2 ^ 11) -> digit_first (hex_pad (if m_extended m then 8 else 3) i).
Proof.
  intros [H L]. unfold hex_pad. destruct (Z.ltb_spec i 0); [lia|]. destruct (m_extended m).
  - rewrite Nat.max_l. 2:{ apply hex_digits_le; [|lia]. split; [lia|]. apply Z.lt_trans with (1 := L). reflexivity. }
    eapply pad_first; [reflexivity|]. apply hexdigit_dec. change (Z.of_nat 7) with 7. assert (0 <= i / 16 ^ 7 <= 9); [|rewrite Z.mod_small; lia].
    split; [apply Z.div_pos; lia|]. apply Z.div_le_upper_bound; [lia|]. apply Z.lt_le_incl. apply Z.lt_le_trans with (1 := L). vm_compute. discriminate.
  - rewrite Nat.max_l. 2:{ apply hex_digits_le; [|lia]. split; [lia|]. apply Z.lt_trans with (1 := L). reflexivity. }
    eapply pad_first; [reflexivity|]. apply hexdigit_dec. change (Z.of_nat 2) with 2. assert (0 <= i / 16 ^ 2 <= 9); [|rewrite Z.mod_small; lia].
    split; [apply Z.div_pos; lia|]. apply Z.div_le_upper_bound; [lia|]. apply Z.lt_le_incl. apply Z.lt_le_trans with (1 := L). vm_compute. discriminate.
Qed.
Lemma lead_nonneg i : decimal_lead i -> 0 <= i.
Proof. intros [->|(d & k & K & D & L & _)]; [lia|]. pose proof (Z.pow_nonneg 16 k ltac:(lia)). nia. Qed.
Lemma lead_first i : decimal_lead i -> digit_first (hex_pad 1 i).
Proof.
  intros Hd. pose proof (lead_nonneg i Hd) as H. unfold hex_pad. destruct (Z.ltb_spec i 0); [lia|]. destruct Hd as [->|(d & k & K & D & L & U)]; [reflexivity|].
  pose proof (Z.pow_pos_nonneg 16 k ltac:(lia) ltac:(lia)) as P. assert (PI : 0 < i) by nia.
  assert (E : Z.log2 i / 4 = k).
  { assert (B : 4 * k <= Z.log2 i < 4 * k + 4).
    { split; [apply Z.log2_le_pow2|apply Z.log2_lt_pow2]; try lia; [rewrite Z.pow_mul_r by lia; change (2 ^ 4) with 16; nia|].
      replace (4 * k + 4) with (4 * (k + 1)) by lia. rewrite Z.pow_mul_r by lia. change (2 ^ 4) with 16. rewrite Z.pow_add_r by lia. change (16 ^ 1) with 16. nia. }
    symmetry. apply Z.div_unique with (r := Z.log2 i - 4 * k); lia. }
  assert (HD : hex_digits i = S (Z.to_nat k)) by (unfold hex_digits; rewrite E; lia). rewrite HD. rewrite Nat.max_r by lia.
  eapply pad_first; [reflexivity|]. apply hexdigit_dec. rewrite Z2Nat.id by lia.
  assert (Q : i / 16 ^ k = d) by (symmetry; apply Z.div_unique with (r := i - 16 ^ k * d); [left; nia|ring]). rewrite Q, Z.mod_small; lia.
Qed.
Lemma removelast_h t : removelast (t ++ ["h"%char]) = t. Proof. rewrite removelast_app by discriminate. apply app_nil_r. Qed.
Lemma first_unsigned t : digit_first t -> forallb hex_upper t = true -> unsigned_hex t = true.
Proof. unfold unsigned_hex. destruct t as [|c r]; [contradiction|]. cbn [digit_first]. now intros -> ->. Qed.
Lemma hex_ok_text t : digit_first t -> forallb hex_upper t = true -> hex_ok (h_text t) = true.
Proof.
  intros D U. unfold hex_ok, h_text. rewrite removelast_h, chars_eqb_refl, andb_true_r. unfold hex_token. pose proof (first_unsigned t D U) as F. destruct t as [|c r]; [contradiction|].
  assert (C : Ascii.eqb c "-" = false). { cbn [digit_first] in D. revert D. clear. destruct c as [[] [] [] [] [] [] [] []]; vm_compute; congruence. } now rewrite C.
Qed.
Lemma hex_ok_minus t : digit_first t -> forallb hex_upper t = true -> hex_ok ("-"%char :: h_text t) = true.
Proof.
  intros D U. unfold hex_ok, h_text. change ("-"%char :: t ++ ["h"%char]) with (("-"%char :: t) ++ ["h"%char]). rewrite removelast_h, chars_eqb_refl, andb_true_r.
  cbn [hex_token]. now apply first_unsigned.
Qed.
Lemma pad_upper w z : 0 <= z -> forallb hex_upper (hex_pad w z) = true. Proof. intros H. apply (hex_pad_read w z H). Qed.
Lemma mux_id_read i : 0 <= i -> mux_id (h_text (hex_pad 1 i)) = Ok i.
Proof. intros H. unfold mux_id, h_text. rewrite last_last, removelast_h. now rewrite hex_of_pad. Qed.

(** ** Texts *)
Lemma decimal_number z : decimal_token (decimal z) = true.
Proof.
  unfold decimal_token. rewrite number_decimal, split_decimal. cbn [andb]. unfold int_number. destruct (z <? 0); reflexivity.
Qed.

Lemma comment_body_token c : comment_body (comment_token c) = c.
Proof. unfold comment_body, comment_token. change (skipn 2 (txt "//" ++ c ++ [newline])) with (c ++ [newline]). rewrite removelast_app by discriminate. apply app_nil_r. Qed.
Lemma unit_body_token u : unit_body (unit_token u) = u.
Proof. unfold unit_body, unit_token. change (skipn 4 (txt "/u:" ++ quote :: u ++ [quote])) with (u ++ [quote]). rewrite removelast_app by discriminate. apply app_nil_r. Qed.
Lemma load_unit_token u : load_unit (unit_token u) = u.
Proof.
  unfold load_unit. change (firstn 4 (unit_token u)) with (txt "/u:" ++ [quote]). rewrite chars_eqb_refl. apply unit_body_token.
Qed.
Lemma row_comment_ok c : no_newline c = true -> comment_ok (Some (row_comment c)) = true.
Proof. intros H. unfold comment_ok, row_comment. rewrite comment_body_token, chars_eqb_refl, andb_true_r. unfold no_newline in *. cbn [forallb]. exact H. Qed.
Lemma load_row_comment c : comment_fit (Some c) = true -> load_comment (row_comment c) = c.
Proof.
  intros H. unfold load_comment, row_comment, comment_token. change (skipn 3 (txt "//" ++ (" "%char :: c) ++ [newline])) with (c ++ [newline]). rewrite rev_app_distr. cbn [rev app drop_ends].
  change (Ascii.eqb newline newline) with true. cbn [orb]. unfold comment_fit in H. apply andb_true_iff in H. destruct H as [N R]. apply negb_true_iff in R.
  destruct c as [|x c _] using rev_ind; [reflexivity|]. rewrite last_last in R. rewrite rev_app_distr. cbn [rev app drop_ends].
  unfold no_newline in N. rewrite forallb_app in N. apply andb_true_iff in N. destruct N as [_ N]. cbn [forallb] in N. rewrite andb_true_r in N. apply negb_true_iff in N.
  rewrite N, R. cbn [orb rev]. rewrite rev_involutive. reflexivity.
Qed.

(** ** Dictionaries *)
Lemma upd_all {V} (l : list (chars * V)) k v : (forall v', In (k, v') l -> v' = v) -> forall d, In (k, v) l \/ cget d k = Some v -> cget (dupdate chars_eqb d l) k = Some v.
Proof.
  induction l as [|[k' v'] l IH]; intros U d H.
  - destruct H as [[]|H]. exact H.
  - cbn [dupdate fold_left fst snd]. apply IH; [intros w I; apply U; now right|]. unfold cget in *. rewrite (get_set chars_eqb cspec). destruct (cspec k' k) as [->|N].
    + right. f_equal. apply U. now left.
    + destruct H as [[E|I]|H]; [congruence|now left|now right].
Qed.
Lemma unique_in l : forall seen s, In s (unique seen l) -> In s l.
Proof.
  induction l as [|x l IH]; intros seen s H; [exact H|]. cbn [unique] in H. destruct (existsb _ seen); [right; eapply IH; eauto|]. destruct H as [->|H]; [now left|right; eapply IH; eauto].
Qed.
Lemma unique_covers l : forall seen s, In s l -> In (s_name s) seen \/ exists u, In u (unique seen l) /\ s_name u = s_name s.
Proof.
  induction l as [|x l IH]; intros seen s H; [contradiction|]. cbn [unique]. destruct (existsb (chars_eqb (s_name x)) seen) eqn:E.
  - destruct H as [->|H]; [left; apply existsb_exists in E; destruct E as (n & I & E); apply chars_eqb_eq in E; now subst|]. now apply IH.
  - destruct H as [->|H]; [right; exists s; split; [now left|reflexivity]|]. destruct (IH (s_name x :: seen) s H) as [[N|N]|(u & U & N)].
    + right. exists x. split; [now left|exact N].
    + now left.
    + right. exists u. split; [now right|exact N].
Qed.

(** ** Enumerations *)
Ltac sbb H := repeat match type of H with andb _ _ = true => apply andb_true_iff in H; let H' := fresh H in destruct H as [H H'] end.
Lemma enum_fit s e : sym_signal s = true -> In e (enum_of s) -> enum_ok e = true /\ load_enum e = Ok (enum_name s, choices_of s).
Proof.
  intros H I. unfold sym_signal in H. apply andb_true_iff in H. destruct H as [_ H]. unfold enum_of in I. destruct (choices_of s) as [|p l] eqn:E; [contradiction|].
  destruct I as [<-|[]]. sbb H. rewrite <- E in *. split.
  - unfold enum_ok. cbn [er_name er_values]. rewrite H. cbn [andb]. rewrite forallb_forall in *. intros q I. apply in_map_iff in I. destruct I as (r & <- & I). cbn [fst snd]. rewrite decimal_number. now apply H1.
  - unfold load_enum. cbn [er_values er_name].
    assert (M : mapM (fun p0 : chars * chars => let* z := int_of (fst p0) in Ok (z, snd p0)) (map (fun p0 => (decimal (fst p0), snd p0)) (choices_of s)) = Ok (choices_of s)).
    { clear. induction (choices_of s) as [|[z t] l IH]; [reflexivity|]. cbn [map mapM fst snd]. rewrite int_of_decimal. cbn [bind]. rewrite IH. reflexivity. }
    rewrite M. cbn [bind]. rewrite (upd_app _ Z.eqb_spec); [reflexivity|]. cbn [app]. exact (nodup_by_spec Z.eqb Z.eqb_spec _ H0).
Qed.

(** ** Signals *)
Definition knows (enums : enum_dict) s : Prop := choices_of s <> [] -> cget enums (enum_name s) = Some (choices_of s).
Lemma name_short s : sym_signal s = true -> signal_name s = s_name s.
Proof.
  intros H. unfold sym_signal in H. sbb H. unfold signal_name. apply firstn_all2. apply Z.leb_le in H9. unfold zlen in H9. lia.
Qed.
Lemma type_word s : sym_word (txt (signal_type s)) = true.
Proof. unfold signal_type. destruct (s_float s); [destruct (s_length s =? 64); reflexivity|]. destruct (s_signed s); [reflexivity|]. destruct (_ && _); reflexivity. Qed.
Lemma attrs_fit s : sym_signal s = true -> forallb attr_ok (signal_attrs s) = true.
Proof.
  intros H. unfold sym_signal in H. sbb H. unfold signal_attrs. rewrite !forallb_app.
  assert (N : forall k n, existsb (String.eqb k) number_keys = true -> sym_num n = true -> attr_ok (AKey k (num_text n)) = true).
  { intros k n K X. unfold sym_num in X. sbb X. cbn [attr_ok]. destruct (attr_key_ok k K) as [_ ->]. now rewrite K, X0. }
  repeat (apply andb_true_iff; split).
  - destruct (s_unit s) as [u|]; [|reflexivity]. destruct u as [|c u]; [reflexivity|]. cbn [forallb attr_ok]. rewrite unit_body_token, chars_eqb_refl, H3. reflexivity.
  - destruct (num_is _ _); [reflexivity|]. cbn [forallb]. rewrite N by auto. reflexivity.
  - destruct (num_is _ _); [reflexivity|]. cbn [forallb]. rewrite N by auto. reflexivity.
  - destruct (s_max s) as [n|]; [|reflexivity]. cbn [forallb]. rewrite N by auto. reflexivity.
  - destruct (s_min s) as [n|]; [|reflexivity]. cbn [forallb]. rewrite N by auto. reflexivity.
  - destruct (s_spn s) as [v|]; [|reflexivity]. destruct v as [z|f|t]; try discriminate H1. cbn [aval_true]. destruct (negb (z =? 0)); [|reflexivity]. cbn [forallb].
    change (aval_text (AInt z)) with (num_text (DInt z)). rewrite N; [reflexivity|reflexivity|]. unfold sym_num. cbn [num_ok num_text andb]. apply decimal_number.
  - destruct (choices_of s) as [|p l]; [reflexivity|]. sbb H0. cbn [forallb attr_ok String.eqb Ascii.eqb Bool.eqb]. now rewrite H0.
Qed.
Lemma row_ok s : sym_signal s = true -> sig_ok (signal_row s) = true.
Proof.
  intros H. pose proof (attrs_fit s H) as A. pose proof (name_short s H) as NS. unfold sym_signal in H. sbb H. unfold sig_ok, signal_row. cbn [sr_name sr_type sr_len sr_big sr_attrs sr_comment].
  rewrite NS, H, type_word, decimal_number, A. cbn [andb]. unfold comment_fit in H2. destruct (s_comment s) as [[|c t]|]; [reflexivity| |reflexivity]. sbb H2. now apply row_comment_ok.
Qed.
Lemma load_attrs_app enums a : forall v b, load_attrs enums v (a ++ b) = let* v := load_attrs enums v a in load_attrs enums v b.
Proof. induction a as [|x a IH]; intros v b; [reflexivity|]. cbn [app load_attrs]. destruct (load_attr enums v x); [apply IH|reflexivity]. Qed.
Definition some_or {A} (a b : option A) : option A := match a with Some x => Some x | None => b end.
Lemma attrs_load enums s v : sym_signal s = true -> knows enums s -> load_attrs enums v (signal_attrs s) =
  Ok (Vals (some_or (view_text (s_unit s)) (v_unit v)) (if num_is (s_scale s) 1 then v_factor v else s_scale s) (if num_is (s_offset s) 0 then v_offset v else s_offset s)
        (some_or (view_choices (s_choices s)) (v_enum v)) (some_or (s_min s) (v_min v)) (some_or (s_max s) (v_max v))
        (match s_spn s with Some (AInt z) => if z =? 0 then v_spn v else Some z | _ => v_spn v end)).
Proof.
  intros H KN. unfold sym_signal in H. sbb H. unfold signal_attrs.
  assert (R : forall n, sym_num n = true -> read_num (num_text n) = Ok n). { intros n X. unfold sym_num in X. sbb X. now apply read_num_text. }
  destruct v as [u f o e mn mx sp]. cbn [v_unit v_factor v_offset v_enum v_min v_max v_spn].
  rewrite load_attrs_app. replace (load_attrs enums _ (match s_unit s with None | Some [] => [] | Some u0 => [AUnit (unit_token u0)] end)) with (Ok (Vals (some_or (view_text (s_unit s)) u) f o e mn mx sp)).
  2:{ destruct (s_unit s) as [[|c t]|]; [reflexivity| |reflexivity]. cbn [load_attrs load_attr bind]. rewrite load_unit_token. reflexivity. }
  cbn [bind]. rewrite load_attrs_app. replace (load_attrs enums _ (if num_is (s_scale s) 1 then [] else [AKey "/f:" (num_text (s_scale s))])) with (Ok (Vals (some_or (view_text (s_unit s)) u) (if num_is (s_scale s) 1 then f else s_scale s) o e mn mx sp)).
  2:{ destruct (num_is (s_scale s) 1); [reflexivity|]. cbn [load_attrs load_attr String.eqb Ascii.eqb Bool.eqb]. rewrite R by assumption. reflexivity. }
  cbn [bind]. rewrite load_attrs_app. replace (load_attrs enums _ (if num_is (s_offset s) 0 then [] else [AKey "/o:" (num_text (s_offset s))])) with (Ok (Vals (some_or (view_text (s_unit s)) u) (if num_is (s_scale s) 1 then f else s_scale s) (if num_is (s_offset s) 0 then o else s_offset s) e mn mx sp)).
  2:{ destruct (num_is (s_offset s) 0); [reflexivity|]. cbn [load_attrs load_attr String.eqb Ascii.eqb Bool.eqb]. rewrite R by assumption. reflexivity. }
  set (U := some_or (view_text (s_unit s)) u). set (FA := if num_is (s_scale s) 1 then f else s_scale s). set (OF := if num_is (s_offset s) 0 then o else s_offset s).
  cbn [bind]. rewrite load_attrs_app. replace (load_attrs enums _ (match s_max s with Some n => [AKey "/max:" (num_text n)] | None => [] end)) with (Ok (Vals U FA OF e mn (some_or (s_max s) mx) sp)).
  2:{ destruct (s_max s) as [n|]; [|reflexivity]. cbn [load_attrs load_attr String.eqb Ascii.eqb Bool.eqb]. rewrite R by assumption. reflexivity. }
  cbn [bind]. rewrite load_attrs_app. replace (load_attrs enums _ (match s_min s with Some n => [AKey "/min:" (num_text n)] | None => [] end)) with (Ok (Vals U FA OF e (some_or (s_min s) mn) (some_or (s_max s) mx) sp)).
  2:{ destruct (s_min s) as [n|]; [|reflexivity]. cbn [load_attrs load_attr String.eqb Ascii.eqb Bool.eqb]. rewrite R by assumption. reflexivity. }
  cbn [bind]. rewrite load_attrs_app.
  replace (load_attrs enums _ (match s_spn s with Some v => if aval_true v then [AKey "/spn:" (aval_text v)] else [] | None => [] end)) with
    (Ok (Vals U FA OF e (some_or (s_min s) mn) (some_or (s_max s) mx) (match s_spn s with Some (AInt z) => if z =? 0 then sp else Some z | _ => sp end))).
  2:{ destruct (s_spn s) as [[z|g|t]|]; try discriminate H1; [|reflexivity]. cbn [aval_true]. destruct (z =? 0); [reflexivity|]. cbn [negb load_attrs load_attr String.eqb Ascii.eqb Bool.eqb aval_text].
      rewrite int_of_decimal. reflexivity. }
  cbn [bind]. set (SP := match s_spn s with Some (AInt z) => if z =? 0 then sp else Some z | _ => sp end).
  unfold knows, choices_of in KN. unfold choices_of, default in *. destruct (s_choices s) as [[|p l]|]; [reflexivity| |reflexivity].
  cbn [load_attrs load_attr String.eqb Ascii.eqb Bool.eqb]. unfold get_enum. rewrite KN by discriminate. reflexivity.
Qed.
Definition base s : dsignal :=
  DSignal (s_name s) 0 (s_length s) (s_big s) (s_signed s && negb (s_float s)) None (view_num (s_scale s) 1) (view_num (s_offset s) 0) (s_float s)
    (view_choices (s_choices s)) (s_min s) (s_max s) (view_text (s_unit s)) (view_text (s_comment s)) [] false None None (view_aval (s_spn s)) [].
Lemma row_load enums s : sym_signal s = true -> knows enums s -> load_sig_row enums (signal_row s) = Ok (base s).
Proof.
  intros H KN. unfold load_sig_row, load_values, signal_row. cbn [sr_name sr_type sr_len sr_big sr_attrs sr_comment].
  assert (T : exists mn mx, load_type (txt (signal_type s)) (Some (decimal (s_length s))) enums = Ok (s_signed s && negb (s_float s), s_float s, s_length s, Vals None (DInt 1) (DInt 0) None mn mx None) /\
     some_or (s_min s) mn = s_min s /\ some_or (s_max s) mx = s_max s).
  { assert (N : forall o : option num, some_or o None = o) by (intros []; reflexivity).
    unfold signal_type, load_type. pose proof H as H'. unfold sym_signal in H'. sbb H'. destruct (s_float s).
    - exists None, None. rewrite andb_false_r. cbn [negb orb] in H'8. destruct (Z.eqb_spec (s_length s) 64) as [->|N64]; [auto|]. rewrite orb_false_r in H'8. apply Z.eqb_eq in H'8. rewrite H'8. auto.
    - rewrite andb_true_r. destruct (s_signed s); [exists None, None; rewrite int_of_decimal; auto|]. destruct ((s_length s =? 1) && opt_is (s_min s) 0 && opt_is (s_max s) 1) eqn:B; [|exists None, None; rewrite int_of_decimal; auto].
      sbb B. apply Z.eqb_eq in B. exists (Some (DInt 0)), (Some (DInt 1)). rewrite B. destruct (s_min s); [|discriminate B1]. destruct (s_max s); [|discriminate B0]. auto. }
  destruct T as (mn & mx & -> & MN & MX). cbn [bind]. rewrite attrs_load by assumption. cbn [bind v_unit v_factor v_offset v_enum v_min v_max v_spn option_map].
  rewrite MN, MX. unfold base. rewrite (name_short s H). f_equal. f_equal.
  - unfold some_or. now destruct (view_choices (s_choices s)).
  - unfold some_or. now destruct (view_text (s_unit s)).
  - unfold sym_signal in H. sbb H. destruct (s_comment s) as [[|c t]|]; [reflexivity| |reflexivity]. cbn [option_map view_text]. now rewrite load_row_comment.
  - unfold sym_signal in H. sbb H. destruct (s_spn s) as [[z|f|t]|]; try discriminate H1; [|reflexivity]. cbn [view_aval aval_true]. now destruct (z =? 0).
Qed.
Lemma base_same a b : s_name a = s_name b -> same_row a b -> base a = base b.
Proof. intros N (A1 & A2 & A3 & A4 & A5 & A6 & A7 & A8 & A9 & A10 & A11 & A12). unfold base. now rewrite N, A1, A2, A3, A4, A5, A6, A7, A8, A9, A10, A11, A12. Qed.
Lemma place_base s mux : option_map (fun p => [snd p]) mux = s_mux_ids s -> option_map fst mux = s_mux_signal s -> place (base s) (s_start s) mux = view_signal s.
Proof. intros A B. unfold place, base, view_signal. cbn. now rewrite A, B. Qed.

(** ** The dictionaries of the file *)
Section Tables.
Context (db : database) (srt : list dsignal -> list dsignal) (SRT : forall l, Permutation (srt l) l) (FIT : sym_fit db).
Lemma signal_fit s : In s (signals_of db) -> sym_signal s = true.
Proof.
  intros I. unfold signals_of in I. apply in_flat_map in I. destruct I as (m & IM & I). pose proof (fit_messages db FIT) as F. rewrite forallb_forall in F. specialize (F m IM). unfold sym_message in F. sbb F.
  rewrite forallb_forall in F0. now apply F0.
Qed.
Lemma enums_load l : enum_rows l = dump_enums db -> exists enums, load_enums l = Ok enums /\ forall s, In s (signals_of db) -> knows enums s.
Proof.
  intros E. unfold load_enums. rewrite E.
  set (us := unique [] (flat_map m_signals (db_messages db))). set (f := fun e : enum_row => match load_enum e with Ok x => x | Err _ => ([], []) end).
  assert (UI : forall u, In u us -> In u (signals_of db)) by (intros u I; apply unique_in in I; exact I).
  assert (M : mapM load_enum (dump_enums db) = Ok (map f (dump_enums db))).
  { apply mapM_all. intros e I. unfold dump_enums in I. fold us in I. apply in_flat_map in I. destruct I as (u & IU & I). unfold f. destruct (enum_fit u e (signal_fit u (UI u IU)) I) as [_ ->]. reflexivity. }
  rewrite M. eexists. split; [reflexivity|].
  assert (IN : forall k v, In (k, v) (map f (dump_enums db)) <-> exists u, In u us /\ choices_of u <> [] /\ k = enum_name u /\ v = choices_of u).
  { intros k v. split.
    - intros I. apply in_map_iff in I. destruct I as (e & X & I). unfold dump_enums in I. fold us in I. apply in_flat_map in I. destruct I as (u & IU & I). exists u.
      unfold f in X. destruct (enum_fit u e (signal_fit u (UI u IU)) I) as [_ Y]. rewrite Y in X. injection X as <- <-. repeat split; auto. intros N. unfold enum_of in I. rewrite N in I. contradiction.
    - intros (u & IU & N & -> & ->). assert (IE : exists e, In e (enum_of u)). { unfold enum_of. destruct (choices_of u); [congruence|]. eexists. now left. }
      destruct IE as (e & IE). apply in_map_iff. exists e. unfold f. destruct (enum_fit u e (signal_fit u (UI u IU)) IE) as [_ ->]. split; [reflexivity|]. unfold dump_enums. fold us. apply in_flat_map. eauto. }
  intros s I N. destruct (unique_covers (signals_of db) [] s I) as [[]|(u & IU & NU)]. change (unique [] (signals_of db)) with us in IU.
  pose proof (fit_same_signals db FIT u s (UI u IU) I NU) as SR. assert (CU : choices_of u = choices_of s) by (unfold choices_of; now destruct SR as (_ & _ & _ & _ & _ & _ & -> & _)).
  assert (NE : enum_name u = enum_name s) by (unfold enum_name, signal_name; now rewrite NU).
  apply upd_all.
  - intros v' I'. apply IN in I'. destruct I' as (w & IW & NW & EW & ->). unfold choices_of. f_equal. apply (fit_enums db FIT w s (UI w IW) I NW N). congruence.
  - left. apply IN. exists u. rewrite CU, NE. auto.
Qed.
Lemma signals_load enums l : signal_rows l = dump_signals srt db -> (forall s, In s (signals_of db) -> knows enums s) ->
  exists signals, load_signals enums l = Ok signals /\ forall s, In s (signals_of db) -> cget signals (signal_name s) = Some (base s).
Proof.
  intros E KN. unfold load_signals. rewrite E. unfold dump_signals. set (us := unique [] (flat_map (fun m => srt (m_signals m)) (db_messages db))).
  assert (SI : forall u, In u (flat_map (fun m => srt (m_signals m)) (db_messages db)) <-> In u (signals_of db)).
  { intros u. unfold signals_of. rewrite !in_flat_map. split; intros (m & IM & I); exists m; (split; [exact IM|]); [apply (Permutation_in _ (SRT _)), I|apply (Permutation_in _ (Permutation_sym (SRT _))), I]. }
  assert (UI : forall u, In u us -> In u (signals_of db)) by (intros u I; apply unique_in in I; now apply SI).
  assert (M : mapM (load_sig_row enums) (map signal_row us) = Ok (map base us)).
  { clear - UI KN FIT LW. assert (G : forall u, In u us -> load_sig_row enums (signal_row u) = Ok (base u)) by (intros u I; apply row_load; [now apply signal_fit, UI|now apply KN, UI]).
    clear - G. induction us as [|u l IH]; [reflexivity|]. cbn [map mapM]. rewrite G by now left. cbn [bind]. rewrite IH; [reflexivity|]. intros v I. apply G. now right. }
  rewrite M. cbn [bind]. eexists. split; [reflexivity|]. intros s I. rewrite name_short by now apply signal_fit. rewrite map_map.
  destruct (unique_covers _ [] s (proj2 (SI s) I)) as [[]|(u & IU & NU)]. fold us in IU.
  apply upd_all.
  - intros v' I'. apply in_map_iff in I'. destruct I' as (w & X & IW). injection X as N <-. apply base_same; [exact N|]. apply (fit_same_signals db FIT); auto.
  - left. apply in_map_iff. exists u. split; [|exact IU]. f_equal; [exact NU|]. apply base_same; [exact NU|]. apply (fit_same_signals db FIT); auto.
Qed.
End Tables.
End View.
