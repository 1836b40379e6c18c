(** C60: the drawing of a message layout shows every bit where it is.
    The specification is [drawn_row] (DrawProofs): for every bit of a byte the three characters that are shown, from the bits [occupies] gives to the signals, and the character between two bits. *)
From Coq Require Import Ascii Permutation Sorting.Sorted.
From Verif Require Import Base PyNum Conversion Signal Message LayoutSpec BitsLemmas DictLemmas CSource CNames DecText Draw DrawProofs Examples.
Local Open Scope string_scope.
Local Open Scope Z_scope.
Local Open Scope list_scope.
Ltac Zify.zify_post_hook ::= Z.div_mod_to_equations.

(** A text of lines *)
Definition lines_of (text : chars) (ls : list chars) : Prop := text = join_lines ls.
(** Column of the middle of a bit: [w] columns for the number of the byte, four for each bit; the two columns of the word Byte come before *)
Definition column (w : nat) (bit : Z) : nat := (w + 2 + Z.to_nat (4 * (7 - bit)))%nat.
(** The least number of bytes that holds the message and all of its signals *)
Definition least_bytes (n : nat) (len : Z) (l : list signal) : Prop :=
  len <= Z.of_nat n /\ fits n l /\ forall k, len <= Z.of_nat k -> fits k l -> (n <= k)%nat.
(** The lines of byte [b], which start at line [r]: its bits, a rule and the names of the signals [sgs] *)
Definition shows_byte (l : list signal) (ls : list chars) (w b r : nat) (sgs : list signal) : Prop :=
  (r + 2 + List.length sgs <= List.length ls)%nat /\
  (exists a k cells, nth r ls [] = a ++ repeat " "%char k ++ decimal (Z.of_nat b) ++ " "%char :: cells /\
     List.length a = 2%nat /\ (k + List.length (decimal (Z.of_nat b)) + 1 = w)%nat /\ drawn_row l b cells) /\
  (exists a, nth (r + 1) ls [] = a ++ repeat " "%char w ++ txt "+---+---+---+---+---+---+---+---+" /\ List.length a = 2%nat) /\
  (forall q s, nth_error sgs q = Some s -> exists a pre, nth (r + 2 + q) ls [] = a ++ pre ++ rstrip (txt "+-- " ++ list_ascii_of_string (s_name s)) /\
     List.length a = 2%nat /\ List.length pre = column w (named_bit s mod 8) /\
     forall c, nth c pre " "%char = "|"%char /\ (exists s', In s' sgs /\ named_bit s mod 8 < named_bit s' mod 8 /\ c = column w (named_bit s' mod 8)) \/
               nth c pre " "%char = " "%char /\ ~ (exists s', In s' sgs /\ named_bit s mod 8 < named_bit s' mod 8 /\ c = column w (named_bit s' mod 8))).

Lemma number_line_ends w i row l b : drawn_row l b (byte_line row) -> exists x, number_line w i (byte_line row) = x ++ ["|"%char].
Proof.
  intros (L & _ & E & _). assert (X : exists y, byte_line row = y ++ ["|"%char]).
  { revert L E. generalize (byte_line row). intros c L E. destruct (exists_last (l := c)) as (y & z & ->); [intros ->; discriminate|]. rewrite app_length in L. cbn in L. rewrite app_nth2 in E by lia. replace (32 - List.length y)%nat with O in E by lia. cbn in E. subst z. now exists y. }
  destruct X as [y ->]. unfold number_line. cbv zeta. exists (repeat " "%char (w - 1 - List.length (decimal (Z.of_nat i))) ++ decimal (Z.of_nat i) ++ " "%char :: y). rewrite <- !app_assoc. reflexivity.
Qed.
Lemma label_last s : rstrip (label_text s) <> [].
Proof. unfold label_text. change (txt "+-- " ++ ?x) with ("+"%char :: txt "-- " ++ x). rewrite rstrip_mark by reflexivity. discriminate. Qed.

(** C60: the text consists of lines; below four lines of header come for each byte a line with its number and its bits, a rule and, if they are asked for, the names of the signals
    whose least significant bit (big endian) or most significant bit (little endian) lies in the byte, one line for each signal, from the least bit upwards. *)
Theorem C60_drawing m names : let l := m_signals m in
  (forall s, In s l -> 0 <= start_bit s /\ 0 < s_length s) -> 0 <= m_length m ->
  exists ls n row sgs, lines_of (layout_string m names) ls /\ least_bytes n (m_length m) l /\ row O = 4%nat /\
    forall b, (b < n)%nat -> shows_byte l ls (List.length (decimal (Z.of_nat n)) + 4) b (row b) (sgs b) /\
      Permutation (if names then filter (named_in b) l else []) (sgs b) /\ StronglySorted (fun s s' => named_bit s mod 8 <= named_bit s' mod 8) (sgs b) /\
      row (S b) = (row b + 2 + List.length (sgs b) + match sgs b with [] => 0 | _ => if S b <? n then 1 else 0 end)%nat.
Proof.
  cbv zeta. intros D HL. set (l := m_signals m) in *. set (rows := byte_rows l (m_length m)). set (n := List.length rows). set (w := number_width n).
  assert (SG : forall b, exists sgs, Permutation (if names then filter (named_in b) l else []) sgs /\ (names = true -> labels l b = map (fun s => (named_bit s mod 8, label_text s)) sgs) /\
    StronglySorted (fun s s' => named_bit s mod 8 <= named_bit s' mod 8) sgs).
  { intros b. destruct names.
    - destruct (labels_of l b D) as (sgs & P & E & S). exists sgs. auto.
    - exists []. repeat constructor. discriminate. }
  set (xs := combine (seq 0 n) rows). set (f := byte_block names l w n).
  assert (NX : forall b, (b < n)%nat -> nth_error xs b = Some (b, nth b rows [])).
  { intros b B. subst xs. assert (LC : (b < List.length (combine (seq 0 n) rows))%nat) by (rewrite combine_length, seq_length; subst n; lia).
    transitivity (Some (nth b (combine (seq 0 n) rows) (O, []))); [exact (nth_error_nth' _ (O, []) LC)|]. f_equal. rewrite combine_nth by (rewrite seq_length; reflexivity). now rewrite seq_nth by exact B. }
  set (ls0 := header w ++ flat_map f xs). set (row := fun b => (4 + List.length (flat_map f (firstn b xs)))%nat).
  assert (CH : exists sgs : nat -> list signal, forall b, (b < n)%nat -> Permutation (if names then filter (named_in b) l else []) (sgs b) /\ (names = true -> labels l b = map (fun s => (named_bit s mod 8, label_text s)) (sgs b)) /\
    StronglySorted (fun s s' => named_bit s mod 8 <= named_bit s' mod 8) (sgs b)).
  { clear -SG. revert SG. generalize n. clear. intros n SG. induction n as [|n [g IH]]; [exists (fun _ => []); intros; lia|]. destruct (SG n) as [h H]. exists (fun b => if (b =? n)%nat then h else g b). intros b B.
    destruct (Nat.eqb_spec b n) as [->|N]; [exact H|]. apply IH. lia. }
  destruct CH as [sgs CH]. exists (drawing names l (m_length m)), n, row, sgs. split; [reflexivity|]. split; [exact (bytes_count l (m_length m) D HL)|]. split; [reflexivity|].
  intros b B. destruct (CH b B) as (P & LB & SS). specialize (NX b B). set (x := (b, nth b rows [])) in *.
  assert (BLK : f x = number_line w b (byte_line (nth b rows [])) :: (repeat " "%char w ++ rule) :: match sgs b with [] => [] | _ => map (fun s => label_line w (labels l b) (named_bit s mod 8, label_text s)) (sgs b) ++ (if (b + 1 <? n)%nat then [repeat " "%char w ++ rule] else []) end).
  { subst f x. unfold byte_block. cbn [fst snd]. f_equal. f_equal. destruct names.
    - unfold label_lines. specialize (LB eq_refl). rewrite LB at 2. rewrite map_map. destruct (sgs b); reflexivity.
    - apply Permutation_nil in P. now rewrite P. }
  assert (DR : drawn_row l b (byte_line (nth b rows []))) by (apply byte_line_drawn; [exact D|exact B]).
  assert (LN : forall k, (k < List.length (f x))%nat -> exists a, List.length a = 2%nat /\ nth (row b + k) (drawing names l (m_length m)) [] = rstrip (a ++ nth k (f x) [])).
  { intros k K. assert (FA := flat_all f xs b x NX). destruct (axis_nth ls0 (row b + k)) as (a & A1 & A2).
    { subst ls0 row. cbv beta. rewrite app_length. cbn [header List.length]. lia. }
    exists a. split; [exact A1|]. change (drawing names l (m_length m)) with (map rstrip (axis ls0)). change (@nil ascii) with (rstrip []) at 1. rewrite map_nth, A2. f_equal. f_equal.
    subst ls0 row. cbv beta. rewrite app_nth2 by (cbn [header List.length]; lia). replace (4 + _ + k - _)%nat with (List.length (flat_map f (firstn b xs)) + k)%nat by (cbn [header List.length]; lia). now apply flat_nth. }
  assert (LX : List.length (f x) = (2 + List.length (sgs b) + match sgs b with [] => 0 | _ => if S b <? n then 1 else 0 end)%nat).
  { rewrite BLK. cbn [List.length]. destruct (sgs b) as [|s r]; [reflexivity|]. rewrite app_length, map_length. rewrite Nat.add_1_r. destruct (S b <? n)%nat; cbn [List.length]; lia. }
  split; [|split; [exact P|split; [exact SS|]]].
  2:{ subst row. cbv beta. rewrite (flat_step f xs b x NX), LX. lia. }
  split; [|split; [|split]].
  - assert (FA := flat_all f xs b x NX). change (drawing names l (m_length m)) with (map rstrip (axis ls0)). rewrite map_length. assert (X := axis_length ls0). subst ls0. rewrite app_length in X. cbn [header List.length] in X. subst row. cbv beta. lia.
  - destruct (LN O) as (a & A1 & A2); [rewrite BLK; cbn; lia|]. rewrite Nat.add_0_r in A2. rewrite BLK in A2. cbn [nth] in A2. destruct (number_line_ends w b _ _ _ DR) as [y Y].
    rewrite Y, app_assoc, rstrip_line, <- app_assoc, <- Y in A2. exists a, (w - 1 - List.length (decimal (Z.of_nat b)))%nat, (byte_line (nth b rows [])). split; [exact A2|]. split; [exact A1|]. split; [|exact DR].
    assert (M := decimal_length_mono (Z.of_nat b) (Z.of_nat n) ltac:(lia)). subst w. unfold number_width. fold n. lia.
  - destruct (LN 1%nat) as (a & A1 & A2); [rewrite BLK; cbn; lia|]. rewrite BLK in A2. cbn [nth] in A2. exists a. split; [|exact A1]. rewrite A2.
    change rule with (txt "+---+---+---+---+---+---+---+---" ++ ["+"%char]). rewrite !app_assoc. rewrite rstrip_app by discriminate. rewrite <- !app_assoc. reflexivity.
  - intros q s Q. assert (QL : (q < List.length (sgs b))%nat) by (apply nth_error_Some; congruence). destruct (LN (2 + q)%nat) as (a & A1 & A2); [rewrite LX; lia|].
    rewrite Nat.add_assoc in A2. rewrite BLK in A2. cbn [nth Nat.add] in A2. rewrite Nat.add_succ_r, Nat.add_1_r in A2.
    replace (S (S (row b)) + q)%nat with (row b + 2 + q)%nat in * by lia.
    assert (E : forall t, nth q (match sgs b with [] => [] | _ => map (fun s => label_line w (labels l b) (named_bit s mod 8, label_text s)) (sgs b) ++ t end) [] = label_line w (labels l b) (named_bit s mod 8, label_text s)).
    { intros t. destruct (sgs b) as [|s0 r0] eqn:ES; [destruct q; discriminate|]. rewrite <- ES in *. rewrite app_nth1 by now rewrite map_length. erewrite nth_error_nth; [reflexivity|]. now erewrite map_nth_error by exact Q. }
    rewrite E in A2. destruct (label_line_shape w (labels l b) (named_bit s mod 8, label_text s)) as (pre & P1 & P2 & P3); [cbn; lia| |].
    { intros o O. destruct names eqn:EN; [|apply Permutation_nil in P; rewrite P in QL; cbn in QL; lia]. rewrite (LB eq_refl) in O. apply in_map_iff in O as (s' & <- & _). cbn [fst]. lia. }
    cbn [fst snd] in *. exists a, pre. rewrite A2, P1. split; [|split; [exact A1|split; [exact P2|]]].
    + rewrite app_assoc, rstrip_app by apply label_last. now rewrite <- app_assoc.
    + assert (EN : names = true) by (destruct names; [reflexivity|apply Permutation_nil in P; rewrite P in QL; cbn in QL; lia]). specialize (LB EN). intros c. rewrite P3.
      destruct (existsb _ (labels l b)) eqn:EX; [left|right]; (split; [reflexivity|]).
      * apply existsb_exists in EX as (o & O & T). rewrite LB in O. apply in_map_iff in O as (s' & <- & I). cbn [fst] in T. apply andb_true_iff in T as [T1 T2]. apply Nat.eqb_eq in T2. exists s'. split; [exact I|]. split; [lia|exact T2].
      * intros (s' & I & T1 & T2). apply not_true_iff_false in EX. apply EX. apply existsb_exists. exists (named_bit s' mod 8, label_text s'). split; [rewrite LB; now apply (in_map (fun s => (named_bit s mod 8, label_text s)))|].
        cbn [fst]. apply andb_true_iff. split; [lia|]. now apply Nat.eqb_eq.
Qed.

(** Every signal has its line: the byte of its named bit is one of the bytes that are drawn. *)
Theorem C60_every_signal_named m s : let l := m_signals m in
  (forall s, In s l -> 0 <= start_bit s /\ 0 < s_length s) -> 0 <= m_length m -> In s l ->
  exists ls b bit n k a pre, lines_of (layout_string m true) ls /\ least_bytes n (m_length m) l /\ (b < n)%nat /\ 0 <= bit < 8 /\ named_bit s = 8 * Z.of_nat b + bit /\
    nth_error ls k = Some (a ++ pre ++ rstrip (txt "+-- " ++ list_ascii_of_string (s_name s))) /\ List.length a = 2%nat /\ List.length pre = column (List.length (decimal (Z.of_nat n)) + 4) bit.
Proof.
  cbv zeta. intros D HL I. destruct (C60_drawing m true D HL) as (ls & n & row & sgs & LS & LB & R0 & H). destruct (D s I) as [S0 SL].
  assert (O : occupies s (named_bit s)). { exists (if s_big s then 0 else s_length s - 1). split; [destruct (s_big s); lia|reflexivity]. }
  assert (NB : 0 <= named_bit s).
  { destruct (s_big s) eqn:B; [rewrite occupies_big in O by exact B; unfold net in O; lia|rewrite occupies_little in O by exact B; rewrite start_bit_little in S0 by exact B; lia]. }
  assert (F := proj1 (proj2 LB) s _ I O). assert (BN : (Z.to_nat (named_bit s / 8) < n)%nat) by lia. destruct (H _ BN) as (SB & P & _).
  assert (IN : In s (sgs (Z.to_nat (named_bit s / 8)))). { apply (Permutation_in _ P). apply filter_In. split; [exact I|]. unfold named_in. lia. }
  apply In_nth_error in IN as [q Q]. destruct SB as (LE & _ & _ & SB). destruct (SB q s Q) as (a & pre & N & A & PL & _).
  assert (QL : (q < List.length (sgs (Z.to_nat (named_bit s / 8))))%nat) by (apply nth_error_Some; congruence).
  exists ls, (Z.to_nat (named_bit s / 8)), (named_bit s mod 8), n, (row (Z.to_nat (named_bit s / 8)) + 2 + q)%nat, a, pre. repeat apply conj; try assumption; try lia; try apply LB.
  rewrite <- N. apply nth_error_nth'. lia.
Qed.

(** Message6 of the tests of the project (tests/test_dump.py:358-387): two big endian signals and a little endian one *)
Definition message6 : message :=
  match mk_message 6 false "Message6" 8 0 [sig "Signal1" 2 5 true false plain_conv; sig "Signal2" 9 1 true false plain_conv; sig "Signal3" 28 18 false false plain_conv] true SortDefault with
  | Ok m => m | Err _ => ex_msg end.
Example C60_message6 : string_of_list_ascii (layout_string message6 true) =
"                      Bit

         7   6   5   4   3   2   1   0
       +---+---+---+---+---+---+---+---+
     0 |   |   |   |   |   |<----------|
       +---+---+---+---+---+---+---+---+
     1 |------x|   |   |   |   |<-x|   |
       +---+---+---+---+---+---+---+---+
             |                   +-- Signal2
             +-- Signal1
       +---+---+---+---+---+---+---+---+
     2 |   |   |   |   |   |   |   |   |
 B     +---+---+---+---+---+---+---+---+
 y   3 |--------------x|   |   |   |   |
 t     +---+---+---+---+---+---+---+---+
 e   4 |-------------------------------|
       +---+---+---+---+---+---+---+---+
     5 |   |   |<----------------------|
       +---+---+---+---+---+---+---+---+
                 +-- Signal3
       +---+---+---+---+---+---+---+---+
     6 |   |   |   |   |   |   |   |   |
       +---+---+---+---+---+---+---+---+
     7 |   |   |   |   |   |   |   |   |
       +---+---+---+---+---+---+---+---+".
Proof. vm_compute. reflexivity. Qed.
(** The hypotheses hold for it, and for a message whose signals overlap and reach over the end of the message *)
Definition overlapping : message :=
  mkMessage 7 false "Overlap" 2 0 [sig "A" 7 10 true false plain_conv; sig "B" 3 10 false false plain_conv; sig "C" 12 8 false false plain_conv] false (m_codec ex_msg) (m_tree ex_msg).
Example C60_hypotheses : Forall (fun m => m_signals m <> [] /\ (forall s, In s (m_signals m) -> 0 <= start_bit s /\ 0 < s_length s) /\ 0 <= m_length m) [message6; overlapping] /\
  least_bytes 3 2 (m_signals overlapping) /\ cell (m_signals overlapping) 1 1 = "-"%char /\ cell (m_signals overlapping) 3 1 = "X"%char /\ cell (m_signals overlapping) 12 2 = "X"%char /\ cell (m_signals overlapping) 19 0 = "<"%char.
Proof.
  assert (D : forall s, In s (m_signals overlapping) -> 0 <= start_bit s /\ 0 < s_length s).
  { intros s H. cbn in H. repeat destruct H as [<-|H]; [..|destruct H]; vm_compute; split; congruence. }
  split; [|split; [|vm_compute; auto]].
  - repeat constructor; try (vm_compute; congruence); try exact D; cbn in *; intros; repeat destruct H as [<-|H]; try destruct H; vm_compute; congruence.
  - exact (bytes_count (m_signals overlapping) 2 D ltac:(lia)).
Qed.
(** A signal that starts before bit 0, which only an unchecked message can hold, is outside the claim: it is drawn from bit 0 on and a byte that does not exist is added. *)
Theorem C60_negative_start_refuted : exists m s, m_signals m = [s] /\ 0 < s_length s /\ start_bit s < 0 /\ ~ occupies s 3 /\ m_length m = 1 /\ string_of_list_ascii (layout_string m false) =
"                      Bit

         7   6   5   4   3   2   1   0
       +---+---+---+---+---+---+---+---+
 B   0 |   |   |   |   |<-------------x|
 y     +---+---+---+---+---+---+---+---+
 t   1 |   |   |   |   |   |   |   |   |
 e     +---+---+---+---+---+---+---+---+".
Proof.
  exists (mkMessage 7 false "N" 1 0 [sig "A" (-1) 4 false false plain_conv] false (m_codec ex_msg) (m_tree ex_msg)), (sig "A" (-1) 4 false false plain_conv).
  split; [reflexivity|]. split; [reflexivity|]. split; [reflexivity|]. split; [|split; [reflexivity|vm_compute; reflexivity]].
  intros O. rewrite occupies_little in O by reflexivity. cbn in O. lia.
Qed.
