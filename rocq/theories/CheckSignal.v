(** CheckSignal: _check_signal accepts a signal exactly when it fits and its bits are free, and
    then marks exactly its bits.  Index [j] of the bit list is payload bit [net j]. *)
From Verif Require Import Base PyNum Conversion Signal Bitstruct Formats Message LayoutSpec
     DictLemmas BitsLemmas GenItems NodeProofs.
Ltac Zify.zify_post_hook ::= Z.div_mod_to_equations.

Definition is_some {A} (o : option A) : bool := match o with Some _ => true | None => false end.

(** Is position [j] taken? *)
Definition occ (bits : list obit) (j : Z) : bool := is_some (nth (Z.to_nat j) bits None).

(** Boolean form of [occupies]. *)
Definition occb (s : signal) (b : Z) : bool :=
  if s_big s then (start_bit s <=? net b) && (net b <? start_bit s + s_length s)
  else (s_start s <=? b) && (b <? s_start s + s_length s).

Lemma occb_iff s b : occb s b = true <-> occupies s b.
Proof.
  unfold occb. destruct (s_big s) eqn:E.
  - rewrite occupies_big by assumption. lia.
  - rewrite occupies_little by assumption. lia.
Qed.

Lemma nth_nrep {A} n (x d : A) i : nth i (nrep n x) d = if (Z.of_nat i <? n) then x else d.
Proof.
  unfold nrep. destruct (Z.ltb_spec (Z.of_nat i) n).
  - assert (forall k j, (j < k)%nat -> nth j (repeat x k) d = x) as R.
    { induction k; intros j Hj; [lia|]. destruct j; cbn; [reflexivity|]. apply IHk. lia. }
    apply R. lia.
  - apply nth_overflow. rewrite repeat_length. lia.
Qed.
Lemma nrep_len {A} n (x : A) : 0 <= n -> zlen (nrep n x) = n.
Proof. intros. unfold zlen, nrep. rewrite repeat_length. lia. Qed.

Lemma nrep_length {A} n (x : A) : List.length (nrep n x) = Z.to_nat n.
Proof. apply repeat_length. Qed.

Lemma nth_app {A} (a b : list A) i d :
  nth i (a ++ b) d = if (i <? List.length a)%nat then nth i a d else nth (i - List.length a) b d.
Proof.
  destruct (Nat.ltb_spec i (List.length a)); [now apply app_nth1|now apply app_nth2].
Qed.

(** Reversal of the byte order of a bit list. *)
Lemma rev_chunks8_spec : forall (m : nat) fuel (l acc : list obit),
  List.length l = (8 * m)%nat -> (m <= fuel)%nat ->
  List.length (rev_chunks8 fuel l acc) = (8 * m + List.length acc)%nat /\
  forall j d, nth j (rev_chunks8 fuel l acc) d =
    if (j <? 8 * m)%nat then nth (8 * (m - 1 - j / 8) + j mod 8) l d else nth (j - 8 * m) acc d.
Proof.
  induction m as [|m IH]; intros fuel l acc HL HF.
  - destruct l; [|cbn in HL; lia]. destruct fuel; cbn; (split; [reflexivity|]); intros; f_equal; lia.
  - destruct fuel as [|fuel]; [lia|].
    destruct l as [|x l'] eqn:El; [cbn in HL; lia|]. rewrite <- El in *.
    assert (E : rev_chunks8 (S fuel) l acc = rev_chunks8 fuel (skipn 8 l) (firstn 8 l ++ acc))
      by (rewrite El; reflexivity).
    rewrite E. clear E El x l'.
    assert (L8 : List.length (firstn 8 l) = 8%nat) by (rewrite firstn_length; lia).
    destruct (IH fuel (skipn 8 l) (firstn 8 l ++ acc)) as [I1 I2].
    { rewrite skipn_length. lia. } { lia. }
    split; [rewrite I1, app_length, L8; lia|].
    intros j d. rewrite I2.
    assert (S8 : forall i, nth i (skipn 8 l) d = nth (8 + i) l d).
    { intros i. rewrite <- (firstn_skipn 8 l) at 2. rewrite app_nth2; rewrite L8; [|lia]. f_equal. lia. }
    assert (F8 : forall i, (i < 8)%nat -> nth i (firstn 8 l) d = nth i l d).
    { intros i Hi. rewrite <- (firstn_skipn 8 l) at 2. rewrite app_nth1; [reflexivity|]. rewrite L8. lia. }
    destruct (Nat.ltb_spec j (8 * m)); destruct (Nat.ltb_spec j (8 * S m)); try lia.
    + rewrite S8. f_equal. lia.
    + rewrite nth_app, L8. destruct (Nat.ltb_spec (j - 8 * m) 8); [|lia].
      rewrite F8 by lia. f_equal. lia.
    + rewrite nth_app, L8. destruct (Nat.ltb_spec (j - 8 * m) 8); [lia|]. f_equal. lia.
Qed.

Lemma rev_chunks8_length : forall fuel (l acc : list obit),
  (List.length l <= 8 * fuel)%nat ->
  List.length (rev_chunks8 fuel l acc) = (List.length l + List.length acc)%nat.
Proof.
  induction fuel as [|fuel IH]; intros l acc HL.
  - destruct l; cbn in *; lia.
  - destruct l as [|x l'] eqn:El; [reflexivity|]. rewrite <- El in *.
    assert (E : rev_chunks8 (S fuel) l acc = rev_chunks8 fuel (skipn 8 l) (firstn 8 l ++ acc))
      by (rewrite El; reflexivity).
    rewrite E. rewrite IH by (rewrite skipn_length; lia).
    rewrite app_length. rewrite <- (firstn_skipn 8 l) at 3. rewrite app_length. lia.
Qed.

(** The bit list of one signal. *)
Lemma signal_bits_spec n s :
  0 <= n -> 0 < s_length s -> 0 <= s_start s ->
  (zlen (signal_bits (8 * n) s) <=? 8 * n) = (start_bit s + s_length s <=? 8 * n) /\
  (start_bit s + s_length s <= 8 * n ->
   forall j, 0 <= j < 8 * n -> occ (signal_bits (8 * n) s) j = occb s (net j)).
Proof.
  intros Hn Hl Hs. unfold signal_bits, occ, occb.
  destruct (s_big s) eqn:Eb.
  - assert (HB : 0 <= start_bit s) by (rewrite start_bit_big by assumption; unfold net; lia).
    split.
    + unfold zlen, nrep. rewrite app_length, !repeat_length. lia.
    + intros HF j Hj. rewrite net_invol. rewrite nth_app.
      rewrite nrep_length.
      destruct (Nat.ltb_spec (Z.to_nat j) (Z.to_nat (start_bit s))).
      * rewrite nth_nrep. destruct (Z.ltb_spec (Z.of_nat (Z.to_nat j)) (start_bit s)); cbn; lia.
      * rewrite nth_nrep.
        destruct (Z.ltb_spec (Z.of_nat (Z.to_nat j - Z.to_nat (start_bit s))) (s_length s)); cbn; lia.
  - rewrite start_bit_little by assumption.
    set (bits := nrep (s_length s) (Some (s_name s)) ++ nrep (s_start s) None).
    assert (LB : @zlen obit bits = s_length s + s_start s).
    { unfold bits, zlen. rewrite app_length, !nrep_length. lia. }
    set (r := if zlen bits <? 8 * n then nrep (8 * n - zlen bits) None ++ bits else bits).
    assert (LR : @zlen obit r = Z.max (8 * n) (s_length s + s_start s)).
    { unfold r. destruct (Z.ltb_spec (zlen bits) (8 * n)); [|lia].
      unfold zlen in *. rewrite app_length, nrep_length. lia. }
    assert (LC : zlen (rev_chunks8 (List.length r) r []) = zlen r).
    { unfold zlen. rewrite rev_chunks8_length by lia. cbn. lia. }
    split; [rewrite LC, LR; lia|].
    intros HF j Hj.
    assert (LR' : List.length r = (8 * Z.to_nat n)%nat) by (unfold zlen in LR; lia).
    destruct (rev_chunks8_spec (Z.to_nat n) (List.length r) r []) as [_ N]; [assumption|lia|].
    rewrite N. destruct (Nat.ltb_spec (Z.to_nat j) (8 * Z.to_nat n)); [|lia].
    set (i := (8 * (Z.to_nat n - 1 - Z.to_nat j / 8) + Z.to_nat j mod 8)%nat).
    assert (Hi : Z.of_nat i = 8 * n - 1 - net j) by (unfold i, net; lia).
    assert (R : 0 <= net j < 8 * n) by (apply -> net_range; assumption).
    assert (Er : nth i r None =
      if (8 * n - (s_start s + s_length s) <=? Z.of_nat i) && (Z.of_nat i <? 8 * n - s_start s)
      then Some (s_name s) else None).
    { assert (forall q, nth q bits None = if Z.of_nat q <? s_length s then Some (s_name s) else None) as NB.
      { intros q. unfold bits. rewrite nth_app.
        rewrite nrep_length, !nth_nrep.
        destruct (Nat.ltb_spec q (Z.to_nat (s_length s))), (Z.ltb_spec (Z.of_nat q) (s_length s)); try lia; try reflexivity.
        match goal with |- (if ?c then _ else _) = _ => destruct c end; reflexivity. }
      unfold r. destruct (Z.ltb_spec (zlen bits) (8 * n)).
      - rewrite nth_app.
        rewrite nrep_length. destruct (Nat.ltb_spec i (Z.to_nat (8 * n - zlen bits))).
        + rewrite nth_nrep.
          destruct (Z.leb_spec (8 * n - (s_start s + s_length s)) (Z.of_nat i)); [lia|].
          cbn. match goal with |- (if ?c then _ else _) = _ => destruct c end; reflexivity.
        + rewrite NB.
          match goal with |- (if ?a then _ else _) = (if ?b then _ else _) => replace b with a by lia end.
          reflexivity.
      - rewrite NB.
        match goal with |- (if ?a then _ else _) = (if ?b then _ else _) => replace b with a by lia end.
        reflexivity. }
    rewrite Er. rewrite Hi.
    match goal with |- is_some (if ?a then _ else _) = ?b => replace a with b by lia; destruct b; reflexivity end.
Qed.

(** mark_bits *)
Lemma mark_bits_spec : forall sig msg,
  (List.length sig <= List.length msg)%nat ->
  ((exists r, mark_bits sig msg = Ok r) <->
   forall i, is_some (nth i sig None) = true -> is_some (nth i msg None) = false) /\
  forall r, mark_bits sig msg = Ok r ->
    List.length r = List.length msg /\
    forall i, is_some (nth i r None) = is_some (nth i sig None) || is_some (nth i msg None).
Proof.
  induction sig as [|x sr IH]; intros msg HL.
  - cbn. split.
    + split; [|eauto]. intros _ i. destruct i; cbn; discriminate.
    + intros r [= <-]. split; [reflexivity|]. intros i. destruct i; reflexivity.
  - destruct msg as [|m mr]; [cbn in HL; lia|]. cbn in HL.
    destruct (IH mr) as [IH1 IH2]; [lia|].
    assert (Common : forall (y : obit), (x = None \/ m = None) ->
      is_some y = is_some x || is_some m ->
      let res := (let* r := mark_bits sr mr in Ok (y :: r)) in
      ((exists r, res = Ok r) <->
       forall i, is_some (nth i (x :: sr) None) = true -> is_some (nth i (m :: mr) None) = false) /\
      forall r, res = Ok r ->
        List.length r = List.length (m :: mr) /\
        forall i, is_some (nth i r None) = is_some (nth i (x :: sr) None) || is_some (nth i (m :: mr) None)).
    { intros y Hxm Hy res. unfold res. split.
      - split.
        + intros [r Hr]. apply bind_ok in Hr. destruct Hr as (r' & Hr & _).
          assert (HH := proj1 IH1 (ex_intro _ _ Hr)).
          intros [|i]; cbn; [destruct Hxm; subst; [discriminate|reflexivity]|apply HH].
        + intros H. destruct (proj2 IH1) as [r Hr]; [intros i; apply (H (S i))|].
          rewrite Hr. cbn. eauto.
      - intros r Hr. apply bind_ok in Hr. destruct Hr as (r' & Hr & [= <-]).
        destruct (IH2 _ Hr) as [L N]. split; [cbn; lia|]. intros [|i]; cbn; auto. }
    destruct x as [n|].
    + destruct m as [m|].
      * cbn [mark_bits]. split; [split|].
        -- intros [? [=]].
        -- intros H. specialize (H 0%nat eq_refl). discriminate.
        -- discriminate.
      * apply (Common (Some n)); auto.
    + apply (Common m); auto.
Qed.

Theorem check_signal_spec n bits s :
  0 <= n -> zlen bits = 8 * n -> 0 < s_length s -> 0 <= s_start s ->
  ((exists bits', check_signal bits s = Ok bits') <->
   sig_fits n s /\ forall b, occupies s b -> occ bits (net b) = false) /\
  forall bits', check_signal bits s = Ok bits' ->
    zlen bits' = 8 * n /\
    forall j, 0 <= j < 8 * n -> occ bits' j = occb s (net j) || occ bits j.
Proof.
  intros Hn HL Hl Hs.
  destruct (signal_bits_spec n s Hn Hl Hs) as [SL SO].
  assert (H0 : 0 <= start_bit s).
  { unfold start_bit. destruct (s_big s); lia. }
  unfold check_signal. rewrite HL.
  destruct (Z.ltb_spec (8 * n) (zlen (signal_bits (8 * n) s))) as [LT|GE].
  - split; [|discriminate]. split; [intros [? [=]]|].
    intros [HF _]. apply sig_fits_iff in HF; [|assumption]. lia.
  - assert (FIT : start_bit s + s_length s <= 8 * n) by lia.
    specialize (SO FIT).
    destruct (mark_bits_spec (signal_bits (8 * n) s) bits) as [M1 M2]; [unfold zlen in *; lia|].
    assert (EXT : forall i, is_some (nth i (signal_bits (8 * n) s) None) = true -> Z.of_nat i < 8 * n).
    { intros i Hi. destruct (Z.lt_ge_cases (Z.of_nat i) (8 * n)); [assumption|].
      rewrite nth_overflow in Hi; [discriminate|]. unfold zlen in *. lia. }
    split.
    + rewrite M1. split.
      * intros H. split; [apply sig_fits_iff; [assumption|lia]|].
        intros b Hb. 
        assert (HF : 0 <= b < 8 * n).
        { apply (proj2 (sig_fits_iff n s Hl)) in Hb; [assumption|lia]. }
        assert (R : 0 <= net b < 8 * n) by (apply -> net_range; assumption).
        apply H. specialize (SO (net b) R). unfold occ in SO. rewrite SO, net_invol. now apply occb_iff.
      * intros [_ H] i Hi. assert (Hlt := EXT i Hi).
        specialize (SO (Z.of_nat i)). unfold occ in SO. rewrite Nat2Z.id in SO.
        rewrite SO in Hi by lia. apply occb_iff in Hi. apply H in Hi.
        rewrite net_invol in Hi. unfold occ in Hi. now rewrite Nat2Z.id in Hi.
    + intros bits' Hb. destruct (M2 _ Hb) as [L N]. split; [unfold zlen in *; lia|].
      intros j Hj. unfold occ in *. rewrite N. rewrite SO by assumption. reflexivity.
Qed.

Lemma check_signal_err n bits s e :
  0 <= n -> zlen bits = 8 * n -> 0 < s_length s -> 0 <= s_start s ->
  check_signal bits s = Err e -> e = CantoolsError.
Proof.
  intros Hn HL Hl Hs. unfold check_signal. rewrite HL.
  destruct (Z.ltb_spec (8 * n) (zlen (signal_bits (8 * n) s))) as [LT|GE]; [congruence|].
  assert (LE : (List.length (signal_bits (8 * n) s) <= List.length bits)%nat) by (unfold zlen in *; lia).
  clear - LE. revert LE. generalize (signal_bits (8 * n) s) as l. intros l. revert bits e.
  induction l as [|x l IH]; intros bits e LE H; [discriminate|].
  destruct bits as [|m r]; [cbn in LE; lia|]. cbn in LE.
  assert (IH' : forall e', mark_bits l r = Err e' -> e' = CantoolsError) by (intros e' He'; apply (IH r e'); [lia|exact He']).
  destruct x as [?|], m as [?|]; cbn in H; try congruence;
    destruct (mark_bits l r) eqn:E; cbn in H; try discriminate; injection H as <-; eauto.
Qed.
