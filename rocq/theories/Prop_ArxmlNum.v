(** Prop_ArxmlNum: property C70, which number a text in an ARXML file stands for. *)
From Coq Require Import Ascii Floats.SpecFloat.
From Verif Require Import Base PyNum DictLemmas CSource CNames Regex DecText DbcToken DbcTables Logreader DecodeCmd Xml Arxml Prop_Arxml.
Local Open Scope string_scope.
Local Open Scope Z_scope.
Local Open Scope list_scope.

(** ** How numbers are written *)
Definition alphabet : chars := txt "0123456789abcdefghijklmnopqrstuvwxyz".
Definition digit_is (c : ascii) (d : Z) : Prop := 0 <= d /\ nth_error alphabet (Z.to_nat d) = Some c.
(** Digits of a base, with at most one underscore between two of them *)
Inductive numeral (b : Z) : chars -> Z -> Prop :=
| num_one c d : digit_is c d -> d < b -> numeral b [c] d
| num_more l z c d : numeral b l z -> digit_is c d -> d < b -> numeral b (l ++ [c]) (b * z + d)
| num_under l z c d : numeral b l z -> digit_is c d -> d < b -> numeral b (l ++ ["_"%char; c]) (b * z + d).
(** Python's integer literals *)
Inductive literal : chars -> Z -> Prop :=
| lit_base b p l z : In (b, p) [(16, "0x"); (8, "0o"); (2, "0b")] -> numeral b l z -> literal (txt p ++ l) z
| lit_base_under b p l z : In (b, p) [(16, "0x"); (8, "0o"); (2, "0b")] -> numeral b l z -> literal (txt p ++ "_"%char :: l) z
| lit_decimal l z : numeral 10 l z -> z = 0 \/ ~ (exists r, l = "0"%char :: r) -> literal l z.
Definition signed_literal (s : chars) (z : Z) : Prop :=
  literal s z \/ (exists r, s = "+"%char :: r /\ literal r z) \/ exists r, s = "-"%char :: r /\ literal r (- z).
(** A zero and then a digit: an octal number of the C language *)
Definition c_octal (s : chars) : Prop := exists c d r, s = "0"%char :: c :: r /\ digit_is c d /\ d < 10.

Section Spec.
  Context (from_text : chars -> option spec_float) (from_hex : chars -> result spec_float).
  Definition reads (s : chars) (n : num) : Prop :=
    s = txt "true" /\ n = NInt 1 \/
    s = txt "false" /\ n = NInt 0 \/
    (c_octal s /\ exists z, numeral 8 s z /\ n = NInt z) \/
    (~ c_octal s /\ exists z, signed_literal s z /\ n = NInt z) \/
    (s <> txt "true" /\ s <> txt "false" /\ ~ c_octal s /\ ~ (exists z, signed_literal s z) /\ exists f, n = NFlt f /\
       ((exists r, s = txt "0x" ++ r) /\ from_hex s = Ok f \/ ~ (exists r, s = txt "0x" ++ r) /\ from_text s = Some f)).
End Spec.
(** A number that is an integer *)
Definition equals (n : num) (z : Z) : Prop :=
  match n with
  | NInt y => y = z
  | NFlt (S754_zero _) => z = 0
  | NFlt (S754_finite s m e) => Z.abs z * 2 ^ Z.max 0 (- e) = Z.pos m * 2 ^ Z.max 0 e /\ (z < 0 <-> s = true)
  | NFlt _ => False
  end.

(** ** Digits *)
Lemma digit_iff c d : digit_of c = Some d <-> digit_is c d.
Proof.
  unfold digit_is. split.
  - intros H. assert (X : exists n, c = ascii_of_nat n /\ (n < 256)%nat) by (exists (nat_of_ascii c); split; [now rewrite ascii_nat_embedding|apply nat_ascii_bounded]).
    destruct c as [[] [] [] [] [] [] [] []]; vm_compute in H; try discriminate; injection H as <-; split; (lia || reflexivity).
  - intros (P & H). assert (L : (Z.to_nat d < List.length alphabet)%nat) by (apply nth_error_Some; congruence). change (List.length alphabet) with 36%nat in L.
    rewrite <- (Z2Nat.id d P). revert H L. generalize (Z.to_nat d) as n. intros n H L.
    do 36 (destruct n as [|n]; [injection H as <-; reflexivity|]). lia.
Qed.
Lemma digit_fun c d d' : digit_is c d -> digit_is c d' -> d = d'.
Proof. rewrite <- !digit_iff. congruence. Qed.
Lemma digit_pos c d : digit_of c = Some d -> 0 <= d. Proof. rewrite digit_iff. now intros (H & _). Qed.
Lemma digit_small c d : digit_is c d -> (is_digit c = true <-> d < 10).
Proof. rewrite <- digit_iff. destruct c as [[] [] [] [] [] [] [] []]; vm_compute; try discriminate; intros [= <-]; split; try discriminate; trivial. Qed.
Lemma small_digit c : is_digit c = true -> exists d, digit_is c d /\ d < 10.
Proof. intros H. assert (E : exists d, digit_of c = Some d) by (unfold digit_of; rewrite H; eauto). destruct E as (d & E). apply digit_iff in E. exists d. split; [exact E|now apply (digit_small c d E)]. Qed.
Lemma no_under : digit_of "_" = None. Proof. reflexivity. Qed.

Section Digits.
  Context (b : Z).
  Lemma read_numeral : forall k l acc z, (List.length l <= k)%nat -> read_digits b acc l = Some z ->
    (acc = 0 -> numeral b l z) /\ (forall p, numeral b p acc -> numeral b (p ++ l) z /\ numeral b (p ++ "_"%char :: l) z).
  Proof.
    induction k as [|k IH]; intros l acc z L H.
    - destruct l; [discriminate|cbn in L; lia].
    - destruct l as [|c r]; [discriminate|]. cbn [read_digits] in H. destruct (digit_of c) as [d|] eqn:D; [|discriminate]. apply digit_iff in D.
      destruct (d <? b) eqn:B; [|discriminate]. apply Z.ltb_lt in B.
      assert (ONE : numeral b [c] d) by now constructor.
      assert (UN : forall p, numeral b p acc -> numeral b (p ++ [c]) (b * acc + d) /\ numeral b (p ++ ["_"%char; c]) (b * acc + d)) by (intros p P; split; now constructor).
      destruct r as [|c' r'].
      + injection H as <-. split; [intros ->; now rewrite Z.mul_0_r|exact UN].
      + destruct (Ascii.eqb_spec c' underscore) as [->|_].
        * destruct (IH r' _ z ltac:(cbn in L; lia) H) as (_ & N). split.
          { intros ->. rewrite Z.mul_0_r in N. exact (proj2 (N [c] ONE)). }
          { intros p P. destruct (UN p P) as (U1 & U2). split; [replace (p ++ c :: underscore :: r') with ((p ++ [c]) ++ underscore :: r') by now rewrite <- app_assoc|replace (p ++ "_"%char :: c :: underscore :: r') with ((p ++ ["_"%char; c]) ++ underscore :: r') by now rewrite <- app_assoc]; now apply N. }
        * destruct (IH (c' :: r') _ z ltac:(cbn in L |- *; lia) H) as (_ & N). split.
          { intros ->. rewrite Z.mul_0_r in N. exact (proj1 (N [c] ONE)). }
          { intros p P. destruct (UN p P) as (U1 & U2). split; [replace (p ++ c :: c' :: r') with ((p ++ [c]) ++ c' :: r') by now rewrite <- app_assoc|replace (p ++ "_"%char :: c :: c' :: r') with ((p ++ ["_"%char; c]) ++ c' :: r') by now rewrite <- app_assoc]; now apply N. }
  Qed.
  Lemma read_snoc c d : digit_of c = Some d -> d < b -> forall k l acc z, (List.length l <= k)%nat -> read_digits b acc l = Some z ->
    read_digits b acc (l ++ [c]) = Some (b * z + d) /\ read_digits b acc (l ++ ["_"%char; c]) = Some (b * z + d).
  Proof.
    intros D B. assert (NU : Ascii.eqb c underscore = false) by (apply Ascii.eqb_neq; intros ->; discriminate). apply Z.ltb_lt in B.
    induction k as [|k IH]; intros l acc z L H; (destruct l as [|x r]; [discriminate|]); [cbn in L; lia|].
    cbn [read_digits app] in *. destruct (digit_of x) as [y|]; [|discriminate]. destruct (y <? b); [|discriminate].
    destruct r as [|x' r'].
    - injection H as <-. cbn [app read_digits]. rewrite NU, D, B. split; reflexivity.
    - cbn [app]. destruct (Ascii.eqb x' underscore).
      + apply IH; [cbn in L; lia|exact H].
      + change (x' :: r' ++ [c]) with ((x' :: r') ++ [c]). change (x' :: r' ++ ["_"%char; c]) with ((x' :: r') ++ ["_"%char; c]). apply IH; [cbn in L |- *; lia|exact H].
  Qed.
  Lemma digits_iff l z : read_digits b 0 l = Some z <-> numeral b l z.
  Proof.
    split; [intros H; exact (proj1 (read_numeral _ l 0 z (le_n _) H) eq_refl)|].
    induction 1 as [c d D B|l z c d _ IH D B|l z c d _ IH D B]; apply digit_iff in D.
    - cbn [read_digits]. rewrite D. apply Z.ltb_lt in B. rewrite B, Z.mul_0_r. reflexivity.
    - exact (proj1 (read_snoc c d D B _ l 0 z (le_n _) IH)).
    - exact (proj2 (read_snoc c d D B _ l 0 z (le_n _) IH)).
  Qed.
  Lemma numeral_head l z : numeral b l z -> exists c d r, l = c :: r /\ digit_is c d /\ d < b.
  Proof.
    induction 1 as [c d D B|l z c d _ (x & y & r & -> & X & Y) D B|l z c d _ (x & y & r & -> & X & Y) D B]; cbn [app]; eauto 8.
  Qed.
  Lemma numeral_fun l z y : numeral b l z -> numeral b l y -> z = y.
  Proof. rewrite <- !digits_iff. congruence. Qed.
End Digits.

(** ** Literals *)
Lemma under_iff b l z : read_digits b 0 (skip_underscore l) = Some z <-> numeral b l z \/ exists r, l = "_"%char :: r /\ numeral b r z.
Proof.
  rewrite digits_iff. unfold skip_underscore. destruct l as [|c r].
  - split; [now left|]. intros [H|(r & [=] & _)]. exact H.
  - destruct (Ascii.eqb_spec c underscore) as [->|N].
    + split; [intros H; right; now exists r|]. intros [H|(r' & [= <-] & H)]; [|exact H]. apply numeral_head in H. destruct H as (c & d & r' & [= <- <-] & D & _). apply digit_iff in D. discriminate.
    + split; [now left|]. intros [H|(r' & [= -> _] & H)]; [exact H|]. now elim N.
Qed.
Lemma literal_prefix b p l z : In (b, p) [(16, "0x"); (8, "0o"); (2, "0b")] ->
  (literal (txt p ++ l) z <-> numeral b l z \/ exists r, l = "_"%char :: r /\ numeral b r z).
Proof.
  intros I. split.
  - intros H. inversion H as [b' p' l' z' I' N E|b' p' l' z' I' N E|l' z' N _ E]; subst z'.
    + assert (b' = b /\ l' = l) as (-> & ->); [|now left].
      destruct I as [[= <- <-]|[[= <- <-]|[[= <- <-]|[]]]], I' as [[= <- <-]|[[= <- <-]|[[= <- <-]|[]]]]; cbn in E; try discriminate; injection E as <-; now split.
    + assert (b' = b /\ "_"%char :: l' = l) as (-> & <-); [|right; now exists l'].
      destruct I as [[= <- <-]|[[= <- <-]|[[= <- <-]|[]]]], I' as [[= <- <-]|[[= <- <-]|[[= <- <-]|[]]]]; cbn in E; try discriminate; injection E as <-; now split.
    + exfalso. subst l'. apply digits_iff in N. destruct I as [[= <- <-]|[[= <- <-]|[[= <- <-]|[]]]]; cbn in N; discriminate.
  - intros [H|(r & -> & H)]; [exact (lit_base b p l z I H)|exact (lit_base_under b p r z I H)].
Qed.
Lemma literal_other l z : (forall p, In p ["0x"; "0o"; "0b"] -> forall r, l <> txt p ++ r) -> (literal l z <-> numeral 10 l z /\ (z = 0 \/ ~ exists r, l = "0"%char :: r)).
Proof.
  intros O. split.
  - intros H. inversion H as [b' p' l' z' I' N E|b' p' l' z' I' N E|l' z' N Q E]; subst z'.
    + exfalso. destruct I' as [[= <- <-]|[[= <- <-]|[[= <- <-]|[]]]]; refine (O _ _ l' (eq_sym E)); cbn; auto.
    + exfalso. destruct I' as [[= <- <-]|[[= <- <-]|[[= <- <-]|[]]]]; refine (O _ _ ("_"%char :: l') (eq_sym E)); cbn; auto.
    + subst. now split.
  - intros (N & Q). now constructor.
Qed.
Lemma body_iff l z : int0_body l = Some z <-> literal l z.
Proof.
  destruct l as [|c l].
  - rewrite literal_other by (intros p [<-|[<-|[<-|[]]]] r; discriminate). split; [discriminate|]. intros (N & _). apply digits_iff in N. discriminate.
  - destruct (Ascii.eqb_spec c "0") as [->|NZ].
    + destruct l as [|x r].
      * rewrite literal_other by (intros p [<-|[<-|[<-|[]]]] r; discriminate). rewrite <- digits_iff. cbn. split; [intros [= <-]; now split; [|left]|]. now intros ([= <-] & _).
      * destruct (Ascii.eqb_spec x "x") as [->|X1]; [rewrite (literal_prefix 16 "0x" r z) by (cbn; auto); apply under_iff|].
        destruct (Ascii.eqb_spec x "o") as [->|X2]; [rewrite (literal_prefix 8 "0o" r z) by (cbn; auto); apply under_iff|].
        destruct (Ascii.eqb_spec x "b") as [->|X3]; [rewrite (literal_prefix 2 "0b" r z) by (cbn; auto); apply under_iff|].
        rewrite literal_other by (intros p [<-|[<-|[<-|[]]]] r' [= -> _]; congruence). rewrite <- digits_iff.
        assert (E : int0_body ("0"%char :: x :: r) = match read_digits 10 0 ("0"%char :: x :: r) with Some 0 => Some 0 | _ => None end).
        { destruct x as [[] [] [] [] [] [] [] []]; try reflexivity; exfalso; congruence. }
        rewrite E. destruct (read_digits 10 0 ("0"%char :: x :: r)) as [[|p|p]|]; split; try discriminate.
        { intros [= <-]. split; [reflexivity|now left]. }
        { now intros ([= <-] & _). }
        { intros ([= <-] & [H|H]); [discriminate|]. exfalso. apply H. eauto. }
        { intros ([= <-] & [H|H]); [discriminate|]. exfalso. apply H. eauto. }
        { intros ([=] & _). }
    + assert (E : int0_body (c :: l) = read_digits 10 0 (c :: l)) by (destruct c as [[] [] [] [] [] [] [] []]; try reflexivity; exfalso; congruence).
      rewrite E, digits_iff, literal_other by (intros p [<-|[<-|[<-|[]]]] r' [= -> _]; congruence). split; [|tauto].
      intros H. split; [exact H|]. right. intros (r & [= -> _]). congruence.
Qed.
Lemma literal_start l z : literal l z -> exists c r, l = c :: r /\ is_digit c = true.
Proof.
  intros H. inversion H as [b' p' l' z' I' N E|b' p' l' z' I' N E|l' z' N _ E].
  - destruct I' as [[= <- <-]|[[= <- <-]|[[= <- <-]|[]]]]; eexists; eexists; split; reflexivity.
  - destruct I' as [[= <- <-]|[[= <- <-]|[[= <- <-]|[]]]]; eexists; eexists; split; reflexivity.
  - destruct (numeral_head _ _ _ N) as (c & d & r & -> & D & B). exists c, r. split; [congruence|]. now apply (digit_small c d D).
Qed.
Lemma int0_iff l z : int0 l = Some z <-> signed_literal l z.
Proof.
  unfold signed_literal. destruct l as [|c l].
  - split; [discriminate|]. intros [H|[(r & [=] & _)|(r & [=] & _)]]. apply literal_start in H. destruct H as (c & r & [=] & _).
  - destruct (Ascii.eqb_spec c "-") as [->|N1].
    + cbn [int0]. split.
      * intros H. right. right. exists l. split; [reflexivity|]. apply body_iff. destruct (int0_body l) as [y|]; [|discriminate]. injection H as <-. now rewrite Z.opp_involutive.
      * intros [H|[(r & [=] & _)|(r & [= <-] & H)]]; [apply literal_start in H; destruct H as (c & r & [= <- _] & H); discriminate|].
        apply body_iff in H. rewrite H. cbn. now rewrite Z.opp_involutive.
    + destruct (Ascii.eqb_spec c "+") as [->|N2].
      * cbn [int0]. rewrite body_iff. split; [intros H; right; left; now exists l|].
        intros [H|[(r & [= <-] & H)|(r & [=] & _)]]; [apply literal_start in H; destruct H as (c & r & [= <- _] & H); discriminate|exact H].
      * assert (E : int0 (c :: l) = int0_body (c :: l)) by (destruct c as [[] [] [] [] [] [] [] []]; try reflexivity; exfalso; congruence).
        rewrite E, body_iff. split; [now left|]. intros [H|[(r & [= -> _] & _)|(r & [= -> _] & _)]]; congruence.
Qed.
Lemma octal_iff s : leads_octal s = true <-> c_octal s.
Proof.
  unfold c_octal. split.
  - destruct s as [|c [|x r]]; try (destruct c as [[] [] [] [] [] [] [] []]; discriminate); [discriminate|]. intros H.
    assert (c = "0"%char /\ is_digit x = true) as (-> & D) by (destruct c as [[] [] [] [] [] [] [] []]; try discriminate H; now split).
    destruct (small_digit x D) as (d & X & B). now exists x, d, r.
  - intros (c & d & r & -> & D & B). cbn. now apply (digit_small c d D).
Qed.
Lemma hex_iff s : is_hex_prefixed s = true <-> exists r, s = txt "0x" ++ r.
Proof.
  split; [|now intros (r & ->)]. destruct s as [|c [|x r]]; try (destruct c as [[] [] [] [] [] [] [] []]; discriminate); [discriminate|]. intros H. exists r.
  assert (c = "0"%char) as -> by (destruct c as [[] [] [] [] [] [] [] []]; try discriminate H; reflexivity).
  assert (x = "x"%char) as -> by (destruct x as [[] [] [] [] [] [] [] []]; try discriminate H; reflexivity). reflexivity.
Qed.

Section Proofs.
  Context (from_text : chars -> option spec_float) (from_hex : chars -> result spec_float).
  Notation number := (number from_text from_hex).
  Notation integer := (integer from_text from_hex).
  Notation reads := (reads from_text from_hex).

  Lemma word_true : ~ c_octal (txt "true") /\ (forall z, ~ signed_literal (txt "true") z) /\ ~ c_octal (txt "false") /\ (forall z, ~ signed_literal (txt "false") z).
  Proof. repeat split; [rewrite <- octal_iff|intros z; rewrite <- int0_iff|rewrite <- octal_iff|intros z; rewrite <- int0_iff]; discriminate. Qed.
  Lemma body_reads s n : number_body from_text from_hex s = Ok n <-> reads s n.
  Proof.
    destruct word_true as (W1 & W2 & W3 & W4). unfold number_body, is_text, Prop_ArxmlNum.reads.
    destruct (cspec s (txt "true")) as [->|N1].
    { split; [intros [= <-]; left; now split|]. intros [(_ & ->)|[([=] & _)|[(O & _)|[(_ & z & L & _)|(N & _)]]]]; [reflexivity|contradiction|now elim (W2 z)|now elim N]. }
    destruct (cspec s (txt "false")) as [->|N2].
    { split; [intros [= <-]; right; left; now split|]. intros [([=] & _)|[(_ & ->)|[(O & _)|[(_ & z & L & _)|(_ & N & _)]]]]; [reflexivity|contradiction|now elim (W4 z)|now elim N]. }
    destruct (leads_octal s) eqn:O.
    { apply octal_iff in O. destruct (read_digits 8 0 s) as [z|] eqn:R.
      - apply digits_iff in R. split; [intros [= <-]; right; right; left; eauto|].
        intros [(E & _)|[(E & _)|[(_ & y & Y & ->)|[(E & _)|(_ & _ & E & _)]]]]; try contradiction. now rewrite (numeral_fun 8 s z y R Y).
      - split; [discriminate|]. intros [(E & _)|[(E & _)|[(_ & y & Y & _)|[(E & _)|(_ & _ & E & _)]]]]; try contradiction. apply digits_iff in Y. congruence. }
    assert (NO : ~ c_octal s) by (rewrite <- octal_iff; congruence).
    destruct (int0 s) as [z|] eqn:I.
    { split.
      - intros [= <-]. right. right. right. left. split; [exact NO|]. exists z. split; [now apply int0_iff|reflexivity].
      - intros [(E & _)|[(E & _)|[(E & _)|[(_ & y & Y & ->)|(_ & _ & _ & E & _)]]]]; try contradiction; [apply int0_iff in Y; congruence|].
        exfalso. apply E. exists z. now apply int0_iff. }
    assert (NI : ~ exists z, signed_literal s z) by (intros (z & Z); apply int0_iff in Z; congruence).
    destruct (is_hex_prefixed s) eqn:X.
    - apply hex_iff in X. split.
      + intros H. destruct (from_hex s) as [f|] eqn:F; [|discriminate]. injection H as <-. right. right. right. right. repeat (split; [assumption|]). exists f. split; [reflexivity|]. now left.
      + intros [(E & _)|[(E & _)|[(E & _)|[(_ & y & Y & ->)|(_ & _ & _ & _ & f & -> & [(_ & F)|(E & _)])]]]]; try contradiction; [exfalso; eauto|]. now rewrite F.
    - assert (NX : ~ exists r, s = txt "0x" ++ r) by (rewrite <- hex_iff; congruence). split.
      + intros H. destruct (from_text s) as [f|] eqn:F; [|discriminate]. injection H as <-. right. right. right. right. repeat (split; [assumption|]). exists f. split; [reflexivity|]. now right.
      + intros [(E & _)|[(E & _)|[(E & _)|[(_ & y & Y & ->)|(_ & _ & _ & _ & f & -> & [(E & _)|(_ & F)])]]]]; try contradiction; [exfalso; eauto|]. now rewrite F.
  Qed.
  (** Which number a text is, without white space at its ends and in lower case; nothing but white space is 0 *)
  Theorem C70_number t n : number t = Ok n <->
    t <> [] /\ exists w, trimmed t w /\ (w = [] /\ n = NInt 0 \/ w <> [] /\ reads (map to_lower w) n).
  Proof.
    unfold number. destruct t as [|c t]; [split; [discriminate|now intros (H & _)]|]. set (t' := c :: t).
    assert (T : trimmed t' (strip_space t')) by now apply strip_trimmed. unfold lower_text. destruct (strip_space t') as [|x w] eqn:E.
    - cbn [map]. split; [intros [= <-]; split; [discriminate|]; exists []; split; [exact T|now left]|]. intros (_ & w & T' & [(_ & ->)|(N & _)]); [reflexivity|]. now elim (N (trimmed_fun _ _ _ T' T)).
    - cbn [map]. change (to_lower x :: map to_lower w) with (map to_lower (x :: w)). rewrite body_reads. split.
      + intros H. split; [discriminate|]. exists (x :: w). split; [exact T|]. right. now split.
      + intros (_ & w' & T' & H). rewrite (trimmed_fun _ _ _ T' T) in H. destruct H as [([=] & _)|(_ & H)]. exact H.
  Qed.
  (** There is an exception exactly for no text, for texts that are no number, and when float.fromhex() raises one *)
  Theorem C70_number_fails t e : number t = Err e ->
    t = [] /\ e = AttributeError \/ t <> [] /\ (forall n, number t <> Ok n) /\ (e = ValueError \/ exists w, trimmed t w /\ from_hex (map to_lower w) = Err e).
  Proof.
    intros H. destruct t as [|c t]; [left; injection H as <-; now split|]. right. split; [discriminate|]. split; [intros n; congruence|].
    unfold number in H. set (t' := c :: t) in *. assert (T : trimmed t' (strip_space t')) by now apply strip_trimmed. unfold lower_text in H.
    destruct (strip_space t') as [|x w] eqn:E; [discriminate|]. cbn [map] in H. change (to_lower x :: map to_lower w) with (map to_lower (x :: w)) in H.
    set (s := map to_lower (x :: w)) in *. unfold number_body in H. destruct (is_text "true" s); [discriminate|]. destruct (is_text "false" s); [discriminate|].
    destruct (leads_octal s); [destruct (read_digits 8 0 s); [discriminate|]; left; congruence|]. destruct (int0 s); [discriminate|].
    destruct (is_hex_prefixed s); [|destruct (from_text s); [discriminate|left; congruence]].
    destruct (from_hex s) as [f|y] eqn:F; [discriminate|]. injection H as <-. right. now exists (x :: w).
  Qed.
  (** Where an integer is needed, a float is as good if it is one *)
  Lemma int_equals n z : (let* y := py_int n in if py_eq n (NInt y) then Ok y else Err ValueError) = Ok z <-> equals n z.
  Proof.
    destruct n as [y|[s|s| |s m e]]; cbn -[Z.mul Z.pow Z.max].
    - unfold py_eq. cbn. rewrite Z.compare_refl. split; congruence.
    - split; [now intros [= <-]|now intros ->].
    - split; [discriminate|contradiction].
    - split; [discriminate|contradiction].
    - unfold py_eq, mag_trunc. cbn [py_compare cmp_Z_float option_map]. destruct (0 <=? e) eqn:E.
      + apply Z.leb_le in E. rewrite Z.compare_refl. cbn [CompOpp]. rewrite (Z.max_l 0 (- e)), (Z.max_r 0 e) by lia. rewrite Z.pow_0_r, Z.mul_1_r.
        assert (P : 0 < Z.pos m * 2 ^ e) by (apply Z.mul_pos_pos; [lia|apply Z.pow_pos_nonneg; lia]). set (v := Z.pos m * 2 ^ e) in *. clearbody v. split.
        * intros [= <-]. unfold signed_Z. destruct s; split; [lia|split; [trivial|lia]|lia|split; [lia|discriminate]].
        * intros (A & S). f_equal. unfold signed_Z. destruct s; [pose proof (proj2 S eq_refl); lia|]. destruct (Z.lt_ge_cases z 0) as [N|N]; [now apply S in N|lia].
      + apply Z.leb_gt in E. rewrite (Z.max_r 0 (- e)), (Z.max_l 0 e) by lia. rewrite Z.pow_0_r, Z.mul_1_r. set (d := 2 ^ (- e)). assert (D : 0 < d) by (apply Z.pow_pos_nonneg; lia).
        pose proof (Z.div_mod (Z.pos m) d ltac:(lia)) as DM. pose proof (Z.mod_pos_bound (Z.pos m) d D) as MB.
        set (q := Z.pos m / d) in *. set (r := Z.pos m mod d) in *.
        assert (Q : (if match CompOpp (signed_Z s q * d ?= signed_Z s (Z.pos m)) with Eq => true | _ => false end then Ok (signed_Z s q) else Err ValueError) = if r =? 0 then Ok (signed_Z s q) else @Err Z ValueError).
        { unfold signed_Z. destruct s; destruct (Z.compare_spec (- q * d) (- Z.pos m)); destruct (Z.compare_spec (q * d) (Z.pos m)); destruct (Z.eqb_spec r 0); try reflexivity; exfalso; nia. }
        cbn [bind]. rewrite Q. destruct (Z.eqb_spec r 0) as [R|R].
        * assert (QP : 0 < q) by nia. unfold signed_Z. split.
          { intros [= <-]. assert (AB : Z.abs (- q) = q /\ Z.abs q = q) by lia. destruct AB as (AB1 & AB2). destruct s; rewrite ?AB1, ?AB2; split; [lia|split; [trivial|lia]|lia|split; [lia|discriminate]]. }
          { intros (A & S). assert (AZ : Z.abs z = q) by (apply (Z.mul_cancel_r _ _ d); lia). f_equal. destruct s; [pose proof (proj2 S eq_refl); lia|]. destruct (Z.lt_ge_cases z 0) as [N|N]; [now apply S in N|lia]. }
        * split; [discriminate|]. intros (A & _). exfalso. apply R. unfold r. rewrite <- A. apply Z.mod_mul. lia.
  Qed.
  Theorem C70_integer t z : integer t = Ok z <-> exists n, number t = Ok n /\ equals n z.
  Proof.
    unfold integer. split.
    - intros H. apply bind_ok in H. destruct H as (n & N & H). exists n. split; [exact N|now apply int_equals].
    - intros (n & N & E). rewrite N. now apply int_equals.
  Qed.
End Proofs.

(** ** Texts of integers are read back *)
Lemma digits_numeral l : forall p acc, forallb is_digit l = true -> numeral 10 p acc -> numeral 10 (p ++ l) (digits_value acc l).
Proof.
  induction l as [|c l IH]; intros p acc D P; [now rewrite app_nil_r|]. cbn in D. apply andb_true_iff in D. destruct D as (D1 & D2).
  destruct (small_digit c D1) as (d & X & B). replace (p ++ c :: l) with ((p ++ [c]) ++ l) by now rewrite <- app_assoc.
  unfold digits_value in *. cbn [fold_left]. assert (V : digit_value c = d).
  { apply digit_iff in X. unfold digit_of in X. rewrite D1 in X. injection X as <-. reflexivity. }
  rewrite V. apply IH; [exact D2|]. now constructor.
Qed.
Lemma decimal_literal z : 0 <= z -> literal (decimal z) z.
Proof.
  intros P. pose proof (decimal_digits z P) as D. pose proof (decimal_value z P) as V. pose proof (decimal_nonnil z) as N.
  constructor.
  - destruct (decimal z) as [|c l] eqn:E; [contradiction|]. cbn in D. apply andb_true_iff in D. destruct D as (D1 & D2). destruct (small_digit c D1) as (d & X & B).
    assert (W : digit_value c = d) by (apply digit_iff in X; unfold digit_of in X; rewrite D1 in X; injection X as <-; reflexivity).
    pose proof (digits_numeral l [c] d D2 (num_one 10 c d X B)) as H. unfold digits_value in *. cbn [fold_left app] in *. rewrite W, Z.mul_0_r in V. cbn [Z.add] in V. rewrite V in H. exact H.
  - destruct (Z.eq_dec z 0) as [->|NZ]; [now left|right]. intros (r & E). pose proof (decimal_head z ltac:(lia)) as H. rewrite E in H. vm_compute in H. now apply H.
Qed.
Lemma decimal_signed z : signed_literal (decimal z) z.
Proof.
  destruct (Z.lt_ge_cases z 0) as [N|N]; [|left; now apply decimal_literal]. right. right. rewrite (decimal_neg z N). exists (decimal (- z)). split; [reflexivity|]. apply decimal_literal. lia.
Qed.
Lemma decimal_chars z : Forall (fun c => c = "-"%char \/ is_digit c = true) (decimal z).
Proof.
  assert (P : forall y, 0 <= y -> Forall (fun c => c = "-"%char \/ is_digit c = true) (decimal y)).
  { intros y H. pose proof (decimal_digits y H) as D. rewrite forallb_forall in D. apply Forall_forall. intros c I. right. exact (D c I). }
  destruct (Z.lt_ge_cases z 0) as [N|N]; [|now apply P]. rewrite (decimal_neg z N). constructor; [now left|]. apply P. lia.
Qed.
Lemma plain_lower c : c = "-"%char \/ is_digit c = true -> to_lower c = c /\ is_space c = false.
Proof. intros [->|H]; [now split|]. destruct c as [[] [] [] [] [] [] [] []]; try discriminate H; now split. Qed.
Lemma spaces_trimmed l r w : Forall (fun a => is_space a = true) l -> Forall (fun a => is_space a = true) r -> Forall (fun a => is_space a = false) w -> trimmed (l ++ w ++ r) w.
Proof.
  intros L R W. exists l, r. split; [reflexivity|]. split; [exact L|]. split; [exact R|]. split.
  - intros a m ->. now inversion W.
  - intros a m ->. apply Forall_app in W. destruct W as (_ & W). now inversion W.
Qed.
Section Back.
  Context (from_text : chars -> option spec_float) (from_hex : chars -> result spec_float).
  Definition white (l : chars) : Prop := Forall (fun a => is_space a = true) l.
  (** Python's text of an integer, with white space around it *)
  Theorem C70_decimal z l r : white l -> white r ->
    number from_text from_hex (l ++ decimal z ++ r) = Ok (NInt z) /\ integer from_text from_hex (l ++ decimal z ++ r) = Ok z.
  Proof.
    intros L R. assert (H : number from_text from_hex (l ++ decimal z ++ r) = Ok (NInt z)).
    { apply C70_number. pose proof (decimal_nonnil z) as N. split.
      - intros E. apply app_eq_nil in E. destruct E as (_ & E). apply app_eq_nil in E. destruct E as (E & _). contradiction.
      - exists (decimal z). pose proof (decimal_chars z) as C. split.
        + apply spaces_trimmed; [exact L|exact R|]. apply Forall_forall. intros c I. rewrite Forall_forall in C. exact (proj2 (plain_lower c (C c I))).
        + right. split; [exact N|]. assert (E : map to_lower (decimal z) = decimal z).
          { clear - C. induction C as [|c w H _ IH]; [reflexivity|]. cbn. now rewrite IH, (proj1 (plain_lower c H)). }
          rewrite E. right. right. right. left. split; [|exists z; split; [apply decimal_signed|reflexivity]].
          intros (c & d & t & O & D & B). destruct (Z.lt_ge_cases z 0) as [Q|Q]; [rewrite (decimal_neg z Q) in O; discriminate|].
          destruct (Z.eq_dec z 0) as [->|NZ]; [discriminate O|]. pose proof (decimal_head z ltac:(lia)) as X. rewrite O in X. vm_compute in X. now apply X. }
    split; [exact H|]. apply C70_integer. exists (NInt z). split; [exact H|reflexivity].
  Qed.
  (** Hexadecimal, octal and binary texts, in upper or lower case *)
  Theorem C70_based b p w z l r : In (b, p) [(16, "0x"); (8, "0o"); (2, "0b"); (8, "0")] -> numeral b (map to_lower w) z -> Forall (fun a => is_space a = false) w ->
    p <> "0" \/ (exists c d t, map to_lower w = c :: t /\ digit_is c d) -> white l -> white r ->
    number from_text from_hex (l ++ (txt p ++ w) ++ r) = Ok (NInt z) /\ integer from_text from_hex (l ++ (txt p ++ w) ++ r) = Ok z.
  Proof.
    intros I N W P L R. assert (H : number from_text from_hex (l ++ (txt p ++ w) ++ r) = Ok (NInt z)).
    { apply C70_number. split.
      - intros E. apply app_eq_nil in E. destruct E as (_ & E). apply app_eq_nil in E. destruct E as (E & _). destruct I as [[= <- <-]|[[= <- <-]|[[= <- <-]|[[= <- <-]|[]]]]]; discriminate.
      - exists (txt p ++ w). split; [apply spaces_trimmed; [exact L|exact R|]; apply Forall_app; split; [|exact W]; destruct I as [[= <- <-]|[[= <- <-]|[[= <- <-]|[[= <- <-]|[]]]]]; repeat constructor|].
        right. split; [destruct I as [[= <- <-]|[[= <- <-]|[[= <- <-]|[[= <- <-]|[]]]]]; discriminate|]. rewrite map_app.
        assert (E : map to_lower (txt p) = txt p) by (destruct I as [[= <- <-]|[[= <- <-]|[[= <- <-]|[[= <- <-]|[]]]]]; reflexivity). rewrite E.
        assert (Q : In (b, p) [(16, "0x"); (8, "0o"); (2, "0b")] \/ (b, p) = (8, "0")) by (cbn in I |- *; intuition). destruct Q as [Q|[= -> ->]].
        + right. right. right. left. split; [|exists z; split; [left; exact (lit_base b p _ z Q N)|reflexivity]].
          intros (c & d & t & O & D & B). destruct Q as [[= <- <-]|[[= <- <-]|[[= <- <-]|[]]]]; injection O as <- _; apply (digit_small _ _ D) in B; discriminate.
        + right. right. left. destruct P as [P|(c & d & t & E' & D)]; [now elim P|]. assert (B : d < 8).
          { destruct (numeral_head _ _ _ N) as (c' & d' & t' & E'' & D' & B'). rewrite E' in E''. injection E'' as <- _. now rewrite (digit_fun c d d' D D'). }
          split; [exists c, d, t; split; [now rewrite E'|split; [exact D|lia]]|]. exists z. split; [|reflexivity].
          apply digits_iff. change (txt "0" ++ map to_lower w) with ("0"%char :: map to_lower w). rewrite E'. apply digits_iff in N. rewrite E' in N. cbn [read_digits] in N |- *.
          change (digit_of "0") with (Some 0). cbn [Z.ltb Z.compare]. rewrite Z.mul_0_r. cbn [Z.add].
          assert (NU : Ascii.eqb c underscore = false) by (apply Ascii.eqb_neq; intros ->; apply digit_iff in D; discriminate). rewrite NU. cbn [read_digits]. exact N. }
    split; [exact H|]. apply C70_integer. exists (NInt z). split; [exact H|reflexivity].
  Qed.
End Back.

(** ** Concrete cases *)
(** float() of a few texts *)
Definition ex_float (s : chars) : option spec_float :=
  if chars_eqb s (txt "-010") then Some (S754_finite true 5629499534213120 (-49))
  else if chars_eqb s (txt "123.0") then Some (S754_finite false 8655355533852672 (-46))
  else if chars_eqb s (txt "0.5") then Some (S754_finite false 4503599627370496 (-53))
  else if chars_eqb s (txt "00.5") then Some (S754_finite false 4503599627370496 (-53)) else None.
Definition ex_hex (s : chars) : result spec_float :=
  if chars_eqb s (txt "0x1.8p1") then Ok (S754_finite false 6755399441055744 (-51)) else Err ValueError.
Example C70_cases :
  map (fun t => number ex_float ex_hex (txt t)) ["True"; "0x_1F"; " 017 "; "1_000"; "-0b101"; "0.5"; "0X1.8P1"; "  "; "08"; "1__0"] =
    [Ok (NInt 1); Ok (NInt 31); Ok (NInt 15); Ok (NInt 1000); Ok (NInt (-5)); Ok (NFlt (S754_finite false 4503599627370496 (-53)));
     Ok (NFlt (S754_finite false 6755399441055744 (-51))); Ok (NInt 0); Err ValueError; Err ValueError] /\
  map (fun t => integer ex_float ex_hex (txt t)) ["123.0"; "0.5"; "0x1.8p1"; ""] = [Ok 123; Err ValueError; Ok 3; Err AttributeError].
Proof. split; vm_compute; reflexivity. Qed.
Example C70_reads_case : reads ex_float ex_hex (txt "0x_1f") (NInt 31) /\ numeral 16 (txt "1f") 31 /\ equals (NFlt (S754_finite false 8655355533852672 (-46))) 123.
Proof. split; [apply body_reads; vm_compute; reflexivity|]. split; [apply digits_iff; vm_compute; reflexivity|]. vm_compute. now split. Qed.
Example C70_based_hypotheses : numeral 16 (map to_lower (txt "aF_09")) 44809 /\ numeral 8 (map to_lower (txt "17")) 15 /\
  Forall (fun a => is_space a = false) (txt "aF_09") /\ (exists c d t, map to_lower (txt "17") = c :: t /\ digit_is c d) /\ white (txt "  ").
Proof.
  split; [apply digits_iff; vm_compute; reflexivity|]. split; [apply digits_iff; vm_compute; reflexivity|]. split; [repeat constructor|].
  split; [exists "1"%char, 1, (txt "7"); split; [reflexivity|now split]|repeat constructor].
Qed.
(** A sign makes a difference: 010 is 8, but -010 is -10, by way of a float; and a number with a zero in front is refused if it
    has a point. *)
Theorem C70_octal_refuted : integer ex_float ex_hex (txt "010") = Ok 8 /\ integer ex_float ex_hex (txt "-010") = Ok (-10) /\
  ex_float (txt "00.5") <> None /\ number ex_float ex_hex (txt "00.5") = Err ValueError.
Proof.
  split; [vm_compute; reflexivity|]. split; [vm_compute; reflexivity|]. split; [discriminate|vm_compute; reflexivity].
Qed.
