(** DrawProofs: the characters of the drawing of a message layout. *)
From Coq Require Import Ascii Permutation Sorting.Sorted.
From Verif Require Import Base PyNum Conversion Signal Message LayoutSpec BitsLemmas DictLemmas CSource CNames Draw.
Local Open Scope string_scope.
Local Open Scope Z_scope.
Local Open Scope list_scope.
Ltac Zify.zify_post_hook ::= Z.div_mod_to_equations.

(** ** The specification *)
Definition covers (s : signal) (p : Z) : bool := existsb (fun k => bit_pos s (Z.of_nat k) =? p) (seq 0 (Z.to_nat (s_length s))).
Lemma covers_iff s p : covers s p = true <-> occupies s p.
Proof.
  unfold covers, occupies. rewrite existsb_exists. split.
  - intros (k & K & E). apply in_seq in K. apply Z.eqb_eq in E. exists (Z.of_nat k). split; [lia|exact E].
  - intros (k & K & E). exists (Z.to_nat k). rewrite in_seq, Z2Nat.id by lia. split; [lia|]. now apply Z.eqb_eq.
Qed.
(** Character [j] of the three characters that a signal alone shows for a bit that it covers *)
Definition alone (s : signal) (p j : Z) : ascii :=
  if (j =? 0) && (p =? bit_pos s (s_length s - 1)) then "<"%char else if (j =? 2) && (p =? bit_pos s 0) then "x"%char else "-"%char.
Definition mark (s : signal) (p j : Z) : ascii := if covers s p then alone s p j else " "%char.
Definition cell (l : list signal) (p j : Z) : ascii :=
  match filter (fun s => covers s p) l with [] => " "%char | [s] => alone s p j | _ => "X"%char end.

(** ** One signal *)
Lemma nth_repeat {A} (c d : A) n i : nth i (repeat c n) d = if (i <? n)%nat then c else d.
Proof. revert i. induction n as [|n IH]; intros [|i]; try reflexivity. cbn [repeat nth]. rewrite IH. reflexivity. Qed.
Lemma nth_arrow i a m (h t d : ascii) :
  nth i (repeat d a ++ h :: repeat "-"%char m ++ [t]) d =
  if (i <? a)%nat then d else if (i =? a)%nat then h else if (i <? a + 1 + m)%nat then "-"%char else if (i =? a + 1 + m)%nat then t else d.
Proof.
  destruct (Nat.ltb_spec i a).
  - rewrite app_nth1 by (rewrite repeat_length; lia). rewrite nth_repeat. now destruct (i <? a)%nat.
  - rewrite app_nth2; rewrite repeat_length; [|lia]. destruct (Nat.eqb_spec i a) as [->|N].
    + now rewrite Nat.sub_diag.
    + destruct (i - a)%nat as [|k] eqn:E; [lia|]. cbn [nth]. destruct (Nat.ltb_spec i (a + 1 + m)).
      * rewrite app_nth1 by (rewrite repeat_length; lia). rewrite nth_repeat. destruct (Nat.ltb_spec k m); [reflexivity|lia].
      * rewrite app_nth2; rewrite repeat_length; [|lia]. destruct (Nat.eqb_spec i (a + 1 + m)) as [E2|N2].
        -- replace (k - m)%nat with O by lia. reflexivity.
        -- destruct (k - m)%nat as [|[|q]] eqn:E3; [lia|reflexivity|reflexivity].
Qed.
Lemma net_eq a b : net a = net b <-> a = b.
Proof. split; [|now intros ->]. intros H. rewrite <- (net_invol a), <- (net_invol b). now f_equal. Qed.
Lemma big_char s p j : s_big s = true -> 0 <= start_bit s -> 0 < s_length s -> 0 <= p -> 0 <= j < 3 -> nth (Z.to_nat (3 * net p + j)) (draw_big s) " "%char = mark s p j.
Proof.
  intros B H0 HL HP HJ. unfold draw_big, blanks, rep. rewrite nth_arrow. assert (NP : 0 <= net p) by (unfold net; lia).
  unfold mark. assert (C := proj1 (iff_trans (covers_iff s p) (occupies_big s p B))). assert (C' := proj2 (iff_trans (covers_iff s p) (occupies_big s p B))).
  assert (M1 : p = bit_pos s (s_length s - 1) <-> net p = start_bit s).
  { rewrite <- net_eq, (bit_pos_big s (s_length s - 1) B) by lia. lia. }
  assert (M0 : p = bit_pos s 0 <-> net p = start_bit s + s_length s - 1).
  { rewrite <- net_eq, (bit_pos_big s 0 B) by lia. lia. }
  unfold alone.
  destruct (covers s p); [specialize (C eq_refl); clear C'|clear C; assert (CC : ~ (start_bit s <= net p < start_bit s + s_length s)) by (intros X; specialize (C' X); discriminate); clear C'].
  - destruct (Nat.ltb_spec (Z.to_nat (3 * net p + j)) (Z.to_nat (3 * start_bit s))); [lia|].
    destruct (Nat.eqb_spec (Z.to_nat (3 * net p + j)) (Z.to_nat (3 * start_bit s))) as [E|N].
    + destruct (Z.eqb_spec j 0); [|lia]. destruct (Z.eqb_spec p (bit_pos s (s_length s - 1))); [reflexivity|lia].
    + destruct (Nat.ltb_spec (Z.to_nat (3 * net p + j)) (Z.to_nat (3 * start_bit s) + 1 + Z.to_nat (3 * s_length s - 2))).
      * destruct (Z.eqb_spec j 0), (Z.eqb_spec p (bit_pos s (s_length s - 1))), (Z.eqb_spec j 2), (Z.eqb_spec p (bit_pos s 0)); cbn [andb]; try reflexivity; lia.
      * destruct (Nat.eqb_spec (Z.to_nat (3 * net p + j)) (Z.to_nat (3 * start_bit s) + 1 + Z.to_nat (3 * s_length s - 2))); [|lia].
        destruct (Z.eqb_spec j 0), (Z.eqb_spec p (bit_pos s (s_length s - 1))), (Z.eqb_spec j 2), (Z.eqb_spec p (bit_pos s 0)); cbn [andb]; try reflexivity; lia.
  - destruct (Nat.ltb_spec (Z.to_nat (3 * net p + j)) (Z.to_nat (3 * start_bit s))); [reflexivity|].
    destruct (Nat.eqb_spec (Z.to_nat (3 * net p + j)) (Z.to_nat (3 * start_bit s))) as [E|N]; [lia|].
    destruct (Nat.ltb_spec (Z.to_nat (3 * net p + j)) (Z.to_nat (3 * start_bit s) + 1 + Z.to_nat (3 * s_length s - 2))); [lia|].
    destruct (Nat.eqb_spec (Z.to_nat (3 * net p + j)) (Z.to_nat (3 * start_bit s) + 1 + Z.to_nat (3 * s_length s - 2))); [lia|reflexivity].
Qed.

(** *** Chunks *)
Lemma chunks_fuel {A} n (l : list A) f g : (0 < n)%nat -> (List.length l <= f)%nat -> (List.length l <= g)%nat -> chunks_aux f n l = chunks_aux g n l.
Proof.
  intros N. revert l g. induction f as [|f IH]; intros l g F G.
  - destruct l; [|cbn in F; lia]. now destruct g.
  - destruct l as [|x l]; [now destruct g|]. destruct g as [|g]; [cbn in G; lia|]. cbn [chunks_aux]. f_equal. cbn [List.length] in *.
    apply IH; rewrite skipn_length; cbn [List.length]; lia.
Qed.
Lemma chunks_cons {A} n (l : list A) : (0 < n)%nat -> l <> [] -> chunks n l = firstn n l :: chunks n (skipn n l).
Proof.
  intros N NE. unfold chunks. destruct l as [|x l]; [contradiction|]. cbn [List.length chunks_aux]. f_equal. apply chunks_fuel; [exact N| |].
  - rewrite skipn_length. cbn [List.length]. lia.
  - lia.
Qed.
Lemma chunks_length {A} n k (l : list A) : (0 < n)%nat -> List.length l = (n * k)%nat -> List.length (chunks n l) = k /\ Forall (fun c => List.length c = n) (chunks n l).
Proof.
  intros N. revert l. induction k as [|k IH]; intros l L.
  - destruct l; [|cbn in L; lia]. split; [reflexivity|constructor].
  - rewrite chunks_cons; [|exact N|intros ->; cbn in L; lia]. destruct (IH (skipn n l)) as [I1 I2]; [rewrite skipn_length; lia|]. split.
    + cbn [List.length]. now rewrite I1.
    + constructor; [rewrite firstn_length; lia|exact I2].
Qed.
Lemma nth_firstn_lt {A} n i (l : list A) d : (i < n)%nat -> nth i (firstn n l) d = nth i l d.
Proof. revert i l. induction n as [|n IH]; intros [|i] [|x l] H; try lia; try reflexivity. cbn [firstn nth]. apply IH. lia. Qed.
Lemma nth_skip {A} n i (l : list A) d : nth i (skipn n l) d = nth (n + i) l d.
Proof. revert l. induction n as [|n IH]; intros [|x l]; try reflexivity; [now destruct i|apply IH]. Qed.
Lemma chunks_nth {A} n k (l : list A) b r (d : A) : (0 < n)%nat -> List.length l = (n * k)%nat -> (b < k)%nat -> (r < n)%nat -> nth r (nth b (chunks n l) []) d = nth (n * b + r) l d.
Proof.
  intros N. revert l b. induction k as [|k IH]; intros l b L B R; [lia|].
  rewrite chunks_cons; [|exact N|intros ->; cbn in L; lia]. destruct b as [|b]; cbn [nth].
  - rewrite nth_firstn_lt by exact R. f_equal. lia.
  - rewrite IH; [|rewrite skipn_length; lia|lia|exact R]. rewrite nth_skip. f_equal. lia.
Qed.
Lemma reverse_nth k f b r (d : ascii) : List.length f = (24 * k)%nat -> (r < 24)%nat ->
  nth (24 * b + r) (List.concat (map (@rev ascii) (chunks 24 f))) d = if (b <? k)%nat then nth (24 * b + (23 - r)) f d else d.
Proof.
  revert f b. induction k as [|k IH]; intros f b L R.
  - destruct f; [|cbn in L; lia]. change (nth (24 * b + r) (@nil ascii) d = d). now destruct (24 * b + r)%nat.
  - rewrite chunks_cons; [|lia|intros ->; cbn in L; lia]. cbn [map List.concat].
    assert (LF : List.length (rev (firstn 24 f)) = 24%nat) by (rewrite rev_length, firstn_length; lia). destruct b as [|b].
    + rewrite app_nth1 by lia. rewrite rev_nth by (rewrite firstn_length; lia). rewrite firstn_length. rewrite nth_firstn_lt by lia. cbn [Nat.ltb Nat.leb].
      change (0 <? S k)%nat with true. cbv iota. f_equal. lia.
    + rewrite app_nth2 by lia. rewrite LF. replace (24 * S b + r - 24)%nat with (24 * b + r)%nat by lia. rewrite IH; [|rewrite skipn_length; lia|exact R].
      change (S b <? S k)%nat with (b <? k)%nat. destruct (b <? k)%nat; [|reflexivity]. rewrite nth_skip. f_equal. lia.
Qed.
Definition little_text (s : signal) : chars :=
  let f := blanks (3 * s_start s) ++ "x"%char :: rep (3 * s_length s - 2) "-" ++ ["<"%char] in
  let e := s_start s + s_length s in
  if e mod 8 =? 0 then f else f ++ blanks (3 * (8 - e mod 8)).
Lemma nth_default {A} i (l : list A) n d : nth i (l ++ repeat d n) d = nth i l d.
Proof.
  destruct (le_lt_dec (List.length l) i) as [H|H].
  - rewrite app_nth2, nth_repeat by exact H. rewrite (nth_overflow l) by exact H. now destruct (_ <? _)%nat.
  - now rewrite app_nth1.
Qed.
Lemma little_text_nth s i : nth i (little_text s) " "%char =
  nth i (repeat " "%char (Z.to_nat (3 * s_start s)) ++ "x"%char :: repeat "-"%char (Z.to_nat (3 * s_length s - 2)) ++ ["<"%char]) " "%char.
Proof. unfold little_text, blanks, rep. destruct (_ =? 0); [reflexivity|]. apply nth_default. Qed.
Lemma little_text_length s : 0 <= s_start s -> 0 < s_length s -> List.length (little_text s) = (24 * Z.to_nat ((s_start s + s_length s + 7) / 8))%nat.
Proof.
  intros H0 HL. unfold little_text, blanks, rep. destruct (Z.eqb_spec ((s_start s + s_length s) mod 8) 0) as [E|E]; repeat (rewrite ?app_length; cbn [List.length]; rewrite ?repeat_length); cbn [List.length]; lia.
Qed.
Lemma little_char s p j : s_big s = false -> 0 <= start_bit s -> 0 < s_length s -> 0 <= p -> 0 <= j < 3 -> nth (Z.to_nat (3 * net p + j)) (draw_little s) " "%char = mark s p j.
Proof.
  intros B H0 HL HP HJ. rewrite start_bit_little in H0 by exact B. change (draw_little s) with (List.concat (map (@rev ascii) (chunks 24 (little_text s)))).
  replace (Z.to_nat (3 * net p + j)) with (24 * Z.to_nat (p / 8) + Z.to_nat (3 * (7 - p mod 8) + j))%nat by (unfold net; lia).
  rewrite (reverse_nth _ _ _ _ _ (little_text_length s H0 HL)) by lia.
  replace (24 * Z.to_nat (p / 8) + (23 - Z.to_nat (3 * (7 - p mod 8) + j)))%nat with (Z.to_nat (3 * p + (2 - j))) by lia.
  assert (X : (if (Z.to_nat (p / 8) <? Z.to_nat ((s_start s + s_length s + 7) / 8))%nat then nth (Z.to_nat (3 * p + (2 - j))) (little_text s) " "%char else " "%char) = nth (Z.to_nat (3 * p + (2 - j))) (little_text s) " "%char).
  { destruct (Nat.ltb_spec (Z.to_nat (p / 8)) (Z.to_nat ((s_start s + s_length s + 7) / 8))); [reflexivity|]. rewrite nth_overflow; [reflexivity|]. rewrite little_text_length by assumption. lia. }
  rewrite X, little_text_nth, nth_arrow. clear X.
  unfold mark. assert (C := proj1 (iff_trans (covers_iff s p) (occupies_little s p B))). assert (C' := proj2 (iff_trans (covers_iff s p) (occupies_little s p B))).
  unfold alone. rewrite !(bit_pos_little s _ B).
  destruct (covers s p); [specialize (C eq_refl); clear C'|clear C; assert (CC : ~ (s_start s <= p < s_start s + s_length s)) by (intros X; specialize (C' X); discriminate); clear C'].
  - destruct (Nat.ltb_spec (Z.to_nat (3 * p + (2 - j))) (Z.to_nat (3 * s_start s))); [lia|].
    destruct (Nat.eqb_spec (Z.to_nat (3 * p + (2 - j))) (Z.to_nat (3 * s_start s))) as [E|N].
    + destruct (Z.eqb_spec j 0), (Z.eqb_spec p (s_start s + (s_length s - 1))), (Z.eqb_spec j 2), (Z.eqb_spec p (s_start s + 0)); cbn [andb]; try reflexivity; lia.
    + destruct (Nat.ltb_spec (Z.to_nat (3 * p + (2 - j))) (Z.to_nat (3 * s_start s) + 1 + Z.to_nat (3 * s_length s - 2))).
      * destruct (Z.eqb_spec j 0), (Z.eqb_spec p (s_start s + (s_length s - 1))), (Z.eqb_spec j 2), (Z.eqb_spec p (s_start s + 0)); cbn [andb]; try reflexivity; lia.
      * destruct (Nat.eqb_spec (Z.to_nat (3 * p + (2 - j))) (Z.to_nat (3 * s_start s) + 1 + Z.to_nat (3 * s_length s - 2))); [|lia].
        destruct (Z.eqb_spec j 0), (Z.eqb_spec p (s_start s + (s_length s - 1))), (Z.eqb_spec j 2), (Z.eqb_spec p (s_start s + 0)); cbn [andb]; try reflexivity; lia.
  - destruct (Nat.ltb_spec (Z.to_nat (3 * p + (2 - j))) (Z.to_nat (3 * s_start s))); [reflexivity|].
    destruct (Nat.eqb_spec (Z.to_nat (3 * p + (2 - j))) (Z.to_nat (3 * s_start s))) as [E|N]; [lia|].
    destruct (Nat.ltb_spec (Z.to_nat (3 * p + (2 - j))) (Z.to_nat (3 * s_start s) + 1 + Z.to_nat (3 * s_length s - 2))); [lia|].
    destruct (Nat.eqb_spec (Z.to_nat (3 * p + (2 - j))) (Z.to_nat (3 * s_start s) + 1 + Z.to_nat (3 * s_length s - 2))); [lia|reflexivity].
Qed.

(** ** All signals *)
Definition draw (s : signal) : chars := if s_big s then draw_big s else draw_little s.
Definition drawn (l : list signal) : Prop := forall s, In s l -> 0 <= start_bit s /\ 0 < s_length s.
Lemma draw_char s p j : 0 <= start_bit s -> 0 < s_length s -> 0 <= p -> 0 <= j < 3 -> nth (Z.to_nat (3 * net p + j)) (draw s) " "%char = mark s p j.
Proof. intros. unfold draw. destruct (s_big s) eqn:B; [now apply big_char|now apply little_char]. Qed.
Definition ordered (l : list signal) : list signal := big_signals l ++ little_signals l.
Lemma signal_rows_eq l : signal_rows l = map draw (ordered l).
Proof.
  unfold signal_rows, ordered. rewrite map_app. f_equal.
  - apply map_ext_in. intros s H. apply filter_In in H. unfold draw. now rewrite (proj2 H).
  - apply map_ext_in. intros s H. apply filter_In in H. unfold draw. destruct (s_big s); [now destruct H|reflexivity].
Qed.
Lemma ordered_perm l : Permutation (ordered l) l.
Proof.
  induction l as [|s l IH]; [constructor|]. unfold ordered, big_signals, little_signals in *. cbn [filter]. destruct (s_big s); cbn [negb app].
  - now constructor.
  - symmetry. apply Permutation_cons_app. now symmetry.
Qed.
Lemma zip_aux_nth {A} n (ls : list (list A)) : Forall (fun l => List.length l = n) ls ->
  List.length (zip_aux n ls) = n /\ forall i d, (i < n)%nat -> nth i (zip_aux n ls) [] = map (fun l => nth i l d) ls.
Proof.
  revert ls. induction n as [|n IH]; intros ls F; [split; [reflexivity|intros; lia]|]. cbn [zip_aux].
  assert (E : forallb (fun l : list A => match l with [] => false | _ => true end) ls = true).
  { apply forallb_forall. intros l H. rewrite Forall_forall in F. specialize (F l H). destruct l; [discriminate|reflexivity]. }
  rewrite E. destruct (IH (map (@tl A) ls)) as [I1 I2].
  { rewrite Forall_forall in *. intros l H. apply in_map_iff in H as (l' & <- & H). specialize (F l' H). destruct l'; cbn in *; congruence. }
  split; [cbn [List.length]; now rewrite I1|]. intros [|i] d H; cbn [nth].
  - clear -F. induction F as [|l ls L _ IH]; [reflexivity|]. destruct l as [|x l]; [discriminate|]. cbn. now rewrite IH.
  - rewrite (I2 i d) by lia. rewrite map_map. apply map_ext_in. intros l Hl. rewrite Forall_forall in F. specialize (F l Hl). destruct l; [discriminate|reflexivity].
Qed.
Lemma union_blank l : Forall (fun c => c = " "%char) l -> union_char l = " "%char.
Proof.
  intros F. assert (E : forall c, Ascii.eqb c " " = false -> count_char c l = O).
  { intros c N. unfold count_char. induction F as [|x l -> F IH]; [reflexivity|]. cbn [filter]. rewrite N. exact IH. }
  unfold union_char. rewrite !E by reflexivity. reflexivity.
Qed.
Lemma row_length_max rows r : In r rows -> (List.length r <= row_length rows)%nat.
Proof.
  intros H. unfold row_length. set (n := fold_right _ _ _). assert (List.length r <= n)%nat.
  { subst n. induction rows as [|x rows IH]; [destruct H|]. destruct H as [->|H]; cbn [map fold_right]; [lia|]. specialize (IH H). lia. }
  destruct (_ =? 0)%nat; lia.
Qed.
Lemma row_length_mod rows : exists k, row_length rows = (24 * k)%nat.
Proof.
  unfold row_length. set (n := fold_right _ _ _). destruct (Nat.eqb_spec (n mod 24) 0) as [E|E].
  - exists (n / 24)%nat. pose proof (Nat.div_mod n 24). lia.
  - exists (n / 24 + 1)%nat. pose proof (Nat.div_mod n 24). pose proof (Nat.mod_upper_bound n 24). lia.
Qed.
Lemma pad_row_length rows r : In r rows -> List.length (pad_row (row_length rows) r) = row_length rows.
Proof. intros H. apply row_length_max in H. unfold pad_row. rewrite app_length, repeat_length. lia. Qed.
Lemma union_row_length l : List.length (union_row l) = row_length (signal_rows l).
Proof.
  unfold union_row. rewrite map_length. destruct (signal_rows l) as [|r rows] eqn:E; [reflexivity|]. rewrite <- E.
  unfold zip. rewrite E at 1 2. cbn [map]. rewrite <- E. rewrite pad_row_length by (rewrite E; now left).
  apply zip_aux_nth. rewrite E. cbn [map]. rewrite <- E. constructor; [apply pad_row_length; rewrite E; now left|].
  rewrite Forall_forall. intros x H. apply in_map_iff in H as (y & <- & H). apply pad_row_length. rewrite E. now right.
Qed.
Lemma union_row_nth l i : nth i (union_row l) " "%char = union_char (map (fun s => nth i (draw s) " "%char) (ordered l)).
Proof.
  destruct (le_lt_dec (row_length (signal_rows l)) i) as [H|H].
  - rewrite nth_overflow by (rewrite union_row_length; exact H). symmetry. apply union_blank. rewrite Forall_forall. intros c Hc.
    apply in_map_iff in Hc as (s & <- & Hs). apply nth_overflow. assert (K := row_length_max (signal_rows l) (draw s)). rewrite signal_rows_eq in K at 1.
    specialize (K (in_map draw _ _ Hs)). lia.
  - unfold union_row. rewrite (nth_indep _ _ (union_char [])).
    2:{ generalize (union_row_length l). unfold union_row. intros ->. exact H. }
    rewrite map_nth. f_equal. destruct (signal_rows l) as [|r rows] eqn:E; [cbn in H; lia|]. rewrite <- E in *. unfold zip. rewrite E at 1 2. cbn [map]. rewrite <- E. rewrite pad_row_length by (rewrite E; now left).
    replace (pad_row (row_length (signal_rows l)) r :: map (pad_row (row_length (signal_rows l))) rows) with (map (pad_row (row_length (signal_rows l))) (signal_rows l)) by (rewrite E; reflexivity).
    destruct (zip_aux_nth (row_length (signal_rows l)) (map (pad_row (row_length (signal_rows l))) (signal_rows l))) as [_ Z].
    { rewrite Forall_forall. intros x Hx. apply in_map_iff in Hx as (y & <- & Hy). now apply pad_row_length. }
    rewrite (Z i " "%char H). generalize (row_length (signal_rows l)). intros n. rewrite map_map, signal_rows_eq, map_map. apply map_ext. intros s. unfold pad_row. apply nth_default.
Qed.
Lemma filter_perm {A} (f : A -> bool) l l' : Permutation l l' -> Permutation (filter f l) (filter f l').
Proof.
  induction 1 as [|x l l' _ IH|x y l|l l' l'' _ IH1 _ IH2]; cbn [filter]; [constructor|destruct (f x); [now constructor|exact IH]| |now transitivity (filter f l')].
  destruct (f x), (f y); try reflexivity. constructor.
Qed.
Lemma alone_cases s p j : alone s p j = "<"%char \/ alone s p j = "-"%char \/ alone s p j = "x"%char.
Proof. unfold alone. destruct (_ && _); [now left|]. destruct (_ && _); [now right; right|now right; left]. Qed.
Ltac eqbs := repeat match goal with |- context [Ascii.eqb ?a ?b] => let v := eval vm_compute in (Ascii.eqb a b) in change (Ascii.eqb a b) with v end; cbv iota.
Lemma count_marks l p j : let ms := map (fun s => mark s p j) l in
  (count_char "<" ms + count_char "-" ms + count_char "x" ms)%nat = List.length (filter (fun s => covers s p) l).
Proof.
  cbv zeta. induction l as [|s l IH]; [reflexivity|]. cbn [map filter]. unfold count_char in *. cbn [filter]. assert (M : mark s p j = if covers s p then alone s p j else " "%char) by reflexivity. rewrite M. destruct (covers s p).
  - cbn [List.length]. rewrite <- IH. destruct (alone_cases s p j) as [E|[E|E]]; rewrite E; eqbs; cbn [List.length]; lia.
  - eqbs. exact IH.
Qed.
Lemma count_one c l p j s : filter (fun s => covers s p) l = [s] -> Ascii.eqb c " " = false -> count_char c (map (fun s => mark s p j) l) = if Ascii.eqb c (alone s p j) then 1%nat else 0%nat.
Proof.
  intros F N. unfold count_char. revert F. assert (Z0 : forall l, filter (fun s => covers s p) l = [] -> filter (Ascii.eqb c) (map (fun s => mark s p j) l) = []).
  { clear -N. induction l as [|x l IH]; [reflexivity|]. cbn [filter map]. unfold mark at 1. destruct (covers x p); [discriminate|]. intros F. rewrite N. now apply IH. }
  induction l as [|x l IH]; [discriminate|]. cbn [filter map]. unfold mark at 1. destruct (covers x p).
  - intros [= -> F]. rewrite (Z0 l F). now destruct (Ascii.eqb c (alone s p j)).
  - intros F. rewrite N. now apply IH.
Qed.
Lemma union_cell l p j : union_char (map (fun s => mark s p j) (ordered l)) = cell l p j.
Proof.
  unfold cell. assert (P := filter_perm (fun s => covers s p) _ _ (ordered_perm l)). assert (C := count_marks (ordered l) p j). cbv zeta in C.
  rewrite (Permutation_length P) in C. unfold union_char. cbv zeta. rewrite C. destruct (filter (fun s => covers s p) l) as [|s [|s' f]] eqn:F.
  - cbn [List.length] in C |- *. cbn [Nat.ltb Nat.leb]. replace (count_char "<" _) with O by lia. replace (count_char "-" _) with O by lia. replace (count_char "x" _) with O by lia. reflexivity.
  - apply Permutation_sym, Permutation_length_1_inv in P. cbn [List.length Nat.ltb Nat.leb].
    rewrite !(count_one _ _ _ _ _ P) by reflexivity. destruct (alone_cases s p j) as [E|[E|E]]; rewrite E; reflexivity.
  - reflexivity.
Qed.
Lemma union_char_cell l p j : drawn l -> 0 <= p -> 0 <= j < 3 -> nth (Z.to_nat (3 * net p + j)) (union_row l) " "%char = cell l p j.
Proof.
  intros D HP HJ. rewrite union_row_nth. rewrite <- union_cell. f_equal. apply map_ext_in. intros s Hs.
  apply (Permutation_in _ (ordered_perm l)) in Hs. destruct (D s Hs). now apply draw_char.
Qed.
(** ** The lines of the bytes *)
Lemma byte_rows_shape l len : Forall (fun r => List.length r = 24%nat) (byte_rows l len).
Proof.
  unfold byte_rows. cbv zeta. apply Forall_app. split.
  - destruct (row_length_mod (signal_rows l)) as [k K]. apply (chunks_length 24 k); [lia|]. now rewrite union_row_length.
  - rewrite Forall_forall. intros r H. apply repeat_spec in H. subst r. reflexivity.
Qed.
Lemma byte_rows_length l len k : row_length (signal_rows l) = (24 * k)%nat -> List.length (byte_rows l len) = Nat.max k (Z.to_nat len).
Proof.
  intros K. unfold byte_rows. cbv zeta. rewrite app_length, repeat_length. destruct (chunks_length 24 k (union_row l)) as [C _]; [lia|now rewrite union_row_length|]. rewrite C. lia.
Qed.
Lemma byte_rows_char l len b i j : drawn l -> (b < List.length (byte_rows l len))%nat -> 0 <= i < 8 -> 0 <= j < 3 ->
  nth (Z.to_nat (3 * (7 - i) + j)) (nth b (byte_rows l len) []) " "%char = cell l (8 * Z.of_nat b + i) j.
Proof.
  intros D B I J. destruct (row_length_mod (signal_rows l)) as [k K]. rewrite (byte_rows_length _ _ k K) in B.
  assert (LU : List.length (union_row l) = (24 * k)%nat) by now rewrite union_row_length.
  destruct (chunks_length 24 k (union_row l)) as [C _]; [lia|exact LU|].
  assert (IX : Z.to_nat (3 * net (8 * Z.of_nat b + i) + j) = (24 * b + Z.to_nat (3 * (7 - i) + j))%nat).
  { unfold net. replace ((8 * Z.of_nat b + i) mod 8) with i by lia. replace ((8 * Z.of_nat b + i) / 8) with (Z.of_nat b) by lia. lia. }
  assert (X := union_char_cell l (8 * Z.of_nat b + i) j D ltac:(lia) J). rewrite IX in X.
  unfold byte_rows. cbv zeta. destruct (le_lt_dec k b) as [KB|KB].
  - rewrite app_nth2 by lia. rewrite (nth_indep _ _ (blanks 24)) by (rewrite repeat_length; lia). rewrite nth_repeat.
    rewrite nth_overflow in X by lia. rewrite <- X. unfold blanks, rep. destruct (_ <? _)%nat; rewrite nth_repeat; now destruct (_ <? _)%nat.
  - rewrite app_nth1 by lia. rewrite (chunks_nth 24 k) by lia. exact X.
Qed.
Lemma separate_nth first prev ts : Forall (fun t => List.length t = 3%nat) ts ->
  List.length (separate first prev ts) = (4 * List.length ts + 1)%nat /\
  nth (4 * List.length ts) (separate first prev ts) " "%char = "|"%char /\
  (forall c j, (c < List.length ts)%nat -> (j < 3)%nat -> nth (4 * c + 1 + j) (separate first prev ts) " "%char = nth j (nth c ts []) " "%char) /\
  (ts <> [] -> nth 0 (separate first prev ts) " "%char = separator first prev (nth 0 (nth 0 ts []) " "%char)) /\
  (forall c, (S c < List.length ts)%nat -> nth (4 * S c) (separate first prev ts) " "%char = separator false (nth 2 (nth c ts []) " "%char) (nth 0 (nth (S c) ts []) " "%char)).
Proof.
  intros F. revert first prev. induction F as [|t ts L F IH]; intros first prev.
  - repeat split; try reflexivity; cbn [List.length]; intros; try lia. contradiction.
  - cbn [separate]. destruct (IH false (nth 2 t " "%char)) as (I1 & I2 & I3 & I4 & I5). destruct t as [|t0 [|t1 [|t2 [|t3 t]]]]; try discriminate. cbn [app nth List.length] in *. repeat split.
    + rewrite I1. lia.
    + replace (4 * S (List.length ts))%nat with (S (S (S (S (4 * List.length ts))))) by lia. exact I2.
    + intros [|c] j C J.
      * destruct j as [|[|[|j]]]; try reflexivity. lia.
      * replace (4 * S c + 1 + j)%nat with (S (S (S (S (4 * c + 1 + j))))) by lia. cbn [nth]. apply I3; lia.
    + intros c C. replace (4 * S c)%nat with (S (S (S (S (4 * c))))) by lia. cbn [nth]. destruct c as [|c].
      * change (4 * 0)%nat with O. rewrite I4; [reflexivity|]. intros ->. cbn in C. lia.
      * rewrite I5 by lia. reflexivity.
Qed.

(** *** Bits of a byte that are next to each other *)
Definition many (l : list signal) (p : Z) : Prop := (2 <= List.length (filter (fun s => covers s p) l))%nat.
Lemma covers_up s p : 0 < s_length s -> covers s p = true -> p mod 8 < 7 -> (covers s (p + 1) = true <-> p <> bit_pos s (s_length s - 1)).
Proof.
  intros HL C M. rewrite covers_iff in *. destruct (s_big s) eqn:B.
  - rewrite occupies_big in * by exact B. assert (X := net_eq p (bit_pos s (s_length s - 1))). rewrite (bit_pos_big s (s_length s - 1) B) in X by lia.
    assert (N : net (p + 1) = net p - 1) by (unfold net; lia). rewrite N, <- X. lia.
  - rewrite occupies_little in * by exact B. rewrite bit_pos_little by exact B. lia.
Qed.
Lemma covers_down s p : 0 < s_length s -> covers s (p + 1) = true -> p mod 8 < 7 -> (covers s p = true <-> p + 1 <> bit_pos s 0).
Proof.
  intros HL C M. rewrite covers_iff in *. destruct (s_big s) eqn:B.
  - rewrite occupies_big in * by exact B. assert (X := net_eq (p + 1) (bit_pos s 0)). rewrite (bit_pos_big s 0 B) in X by lia.
    assert (N : net (p + 1) = net p - 1) by (unfold net; lia). rewrite <- X. lia.
  - rewrite occupies_little in * by exact B. rewrite bit_pos_little by exact B. lia.
Qed.
Lemma in_covering l p s : In s l -> covers s p = true -> In s (filter (fun s => covers s p) l).
Proof. intros. now apply filter_In. Qed.
Lemma separator_iff l p : drawn l -> p mod 8 < 7 ->
  (separator false (cell l (p + 1) 2) (cell l p 0) <> "|"%char <-> (exists s, In s l /\ covers s p = true /\ covers s (p + 1) = true) \/ (many l p /\ many l (p + 1))).
Proof.
  intros D M. unfold cell at 2, many at 1. destruct (filter (fun s => covers s p) l) as [|s [|s2 f]] eqn:F.
  - split; [intros X; now contradiction X|]. intros [(s & I & C & _)|[X _]]; [|cbn in X; lia]. exfalso. apply (in_covering _ _ _ I) in C. now rewrite F in C.
  - assert (HS : In s l /\ covers s p = true) by (apply (proj1 (filter_In (fun s => covers s p) s l)); rewrite F; now left). destruct HS as [I C]. destruct (D s I) as [H0 HL]. assert (U := covers_up s p HL C M).
    assert (one : forall s', In s' l -> covers s' p = true -> s' = s). { intros s' I' C'. apply (in_covering _ _ _ I') in C'. rewrite F in C'. destruct C' as [->|[]]. reflexivity. }
    unfold alone. cbn [Z.eqb andb]. destruct (Z.eqb_spec p (bit_pos s (s_length s - 1))) as [E|N].
    + split; [intros X; now contradiction X|]. intros [(s' & I' & C1 & C2)|[X _]]; [|cbn in X; lia]. rewrite (one s' I' C1) in C2. apply U in C2. contradiction.
    + split; [intros _; left; exists s; repeat split; auto; now apply U|discriminate].
  - assert (P : (2 <= List.length (s :: s2 :: f))%nat) by (cbn; lia). unfold cell, many. destruct (filter (fun s0 => covers s0 (p + 1)) l) as [|s' [|s3 f']] eqn:F'.
    + split; [intros X; now contradiction X|]. intros [(s' & I & _ & C)|[_ X]]; [|cbn in X; lia]. exfalso. apply (in_covering _ _ _ I) in C. now rewrite F' in C.
    + assert (HS : In s' l /\ covers s' (p + 1) = true) by (apply (proj1 (filter_In (fun s => covers s (p + 1)) s' l)); rewrite F'; now left). destruct HS as [I C]. destruct (D s' I) as [H0 HL]. assert (U := covers_down s' p HL C M).
      assert (one : forall s'', In s'' l -> covers s'' (p + 1) = true -> s'' = s'). { intros s'' I' C'. apply (in_covering _ _ _ I') in C'. rewrite F' in C'. destruct C' as [->|[]]. reflexivity. }
      unfold alone. cbn [Z.eqb andb Pos.eqb]. destruct (Z.eqb_spec (p + 1) (bit_pos s' 0)) as [E|N].
      * split; [intros X; now contradiction X|]. intros [(s'' & I' & C1 & C2)|[_ X]]; [|cbn in X; lia]. rewrite (one s'' I' C2) in C1. apply U in C1. contradiction.
      * split; [intros _; left; exists s'; repeat split; auto; now apply U|discriminate].
    + split; [intros _; right; split; cbn; lia|discriminate].
Qed.
(** The line of a byte without its number *)
Definition drawn_row (l : list signal) (b : nat) (cells : chars) : Prop :=
  List.length cells = 33%nat /\ nth 0 cells " "%char = "|"%char /\ nth 32 cells " "%char = "|"%char /\
  (forall i j, 0 <= i < 8 -> 0 <= j < 3 -> nth (Z.to_nat (4 * (7 - i) + 1 + j)) cells " "%char = cell l (8 * Z.of_nat b + i) j) /\
  (forall i, 0 <= i < 7 -> (nth (Z.to_nat (4 * (7 - i))) cells " "%char <> "|"%char <->
     (exists s, In s l /\ covers s (8 * Z.of_nat b + i) = true /\ covers s (8 * Z.of_nat b + i + 1) = true) \/ (many l (8 * Z.of_nat b + i) /\ many l (8 * Z.of_nat b + i + 1)))).
Lemma byte_line_drawn l len b : drawn l -> (b < List.length (byte_rows l len))%nat -> drawn_row l b (byte_line (nth b (byte_rows l len) [])).
Proof.
  intros D B. assert (LR : List.length (nth b (byte_rows l len) []) = 24%nat).
  { assert (X := byte_rows_shape l len). rewrite Forall_forall in X. apply X. now apply nth_In. }
  assert (CH := fun i j => byte_rows_char l len b i j D B). revert CH LR. generalize (nth b (byte_rows l len) []). intros row CH LR.
  destruct (chunks_length 3 8 row) as [C1 C2]; [lia|exact LR|]. destruct (separate_nth true " " (chunks 3 row) C2) as (S1 & S2 & S3 & S4 & S5). rewrite C1 in *. unfold byte_line, drawn_row.
  assert (T : forall i j, 0 <= i < 8 -> 0 <= j < 3 -> nth (Z.to_nat j) (nth (Z.to_nat (7 - i)) (chunks 3 row) []) " "%char = cell l (8 * Z.of_nat b + i) j).
  { intros i j I J. rewrite (chunks_nth 3 8) by lia. rewrite <- CH by assumption. f_equal. lia. }
  repeat apply conj.
  - exact S1.
  - rewrite S4; [reflexivity|]. intros E. rewrite E in C1. discriminate.
  - exact S2.
  - intros i j I J. rewrite <- T by assumption. rewrite <- S3 by lia. f_equal. lia.
  - intros i I. replace (Z.to_nat (4 * (7 - i))) with (4 * S (Z.to_nat (6 - i)))%nat by lia. rewrite S5 by lia.
    assert (T1 := T i 0 ltac:(lia) ltac:(lia)). assert (T2 := T (i + 1) 2 ltac:(lia) ltac:(lia)).
    change (Z.to_nat 0) with O in T1. change (Z.to_nat 2) with 2%nat in T2. replace (Z.to_nat (7 - (i + 1))) with (Z.to_nat (6 - i)) in T2 by lia.
    replace (S (Z.to_nat (6 - i))) with (Z.to_nat (7 - i)) by lia. rewrite T1, T2. rewrite Z.add_assoc. apply separator_iff; [exact D|]. lia.
Qed.

(** *** The number of bytes *)
Definition fits (n : nat) (l : list signal) : Prop := forall s p, In s l -> occupies s p -> p < 8 * Z.of_nat n.
Lemma fits_one s n : 0 < s_length s -> (forall p, occupies s p -> p < 8 * Z.of_nat n) <-> start_bit s + s_length s <= 8 * Z.of_nat n.
Proof.
  intros HL. destruct (s_big s) eqn:B.
  - split.
    + intros H. assert (X := H (net (start_bit s + s_length s - 1))). rewrite occupies_big, net_invol in X by exact B. specialize (X ltac:(lia)). unfold net in X. lia.
    + intros H p O. rewrite occupies_big in O by exact B. unfold net in O. lia.
  - rewrite start_bit_little by exact B. split.
    + intros H. assert (X := H (s_start s + s_length s - 1)). rewrite occupies_little in X by exact B. specialize (X ltac:(lia)). lia.
    + intros H p O. rewrite occupies_little in O by exact B. lia.
Qed.
Lemma concat_rev_length (c : list chars) : List.length (List.concat (map (@rev ascii) c)) = List.length (List.concat c).
Proof. induction c as [|x c IH]; [reflexivity|]. cbn [map List.concat]. rewrite !app_length, rev_length. lia. Qed.
Lemma concat_chunks {A} n k (l : list A) : (0 < n)%nat -> List.length l = (n * k)%nat -> List.concat (chunks n l) = l.
Proof.
  intros N. revert l. induction k as [|k IH]; intros l L.
  - destruct l; [reflexivity|cbn in L; lia].
  - rewrite chunks_cons; [|exact N|intros ->; cbn in L; lia]. cbn [List.concat]. rewrite IH by (rewrite skipn_length; lia). apply firstn_skipn.
Qed.
Lemma draw_length s : 0 <= start_bit s -> 0 < s_length s -> 3 * (start_bit s + s_length s) <= zlen (draw s) <= 24 * ((start_bit s + s_length s + 7) / 8).
Proof.
  intros H0 HL. unfold draw. destruct (s_big s) eqn:B.
  - unfold draw_big, zlen, blanks, rep. repeat (rewrite ?app_length; cbn [List.length]; rewrite ?repeat_length). lia.
  - rewrite start_bit_little in * by exact B. change (draw_little s) with (List.concat (map (@rev ascii) (chunks 24 (little_text s)))).
    unfold zlen. rewrite concat_rev_length, (concat_chunks 24 _ _ (Nat.lt_0_succ 23) (little_text_length s H0 HL)), (little_text_length s H0 HL). lia.
Qed.
Lemma row_length_less rows k : (forall r, In r rows -> (List.length r <= 24 * k)%nat) -> (row_length rows <= 24 * k)%nat.
Proof.
  intros H. unfold row_length. set (n := fold_right _ _ _). assert (n <= 24 * k)%nat.
  { subst n. clear -H. induction rows as [|r rows IH]; [cbn; lia|]. cbn [map fold_right]. assert (X := H r (or_introl eq_refl)). assert (Y := IH (fun r0 H0 => H r0 (or_intror H0))). lia. }
  pose proof (Nat.div_mod n 24). pose proof (Nat.mod_upper_bound n 24). destruct (Nat.eqb_spec (n mod 24) 0); lia.
Qed.
Lemma bytes_count l len : drawn l -> 0 <= len ->
  let n := List.length (byte_rows l len) in
  len <= Z.of_nat n /\ fits n l /\ forall k, len <= Z.of_nat k -> fits k l -> (n <= k)%nat.
Proof.
  intros D HL n. destruct (row_length_mod (signal_rows l)) as [k K]. assert (N : n = Nat.max k (Z.to_nat len)) by now apply byte_rows_length. repeat split.
  - lia.
  - intros s p I. destruct (D s I) as [H0 H1]. revert p. apply fits_one; [exact H1|]. assert (X := row_length_max (signal_rows l) (draw s)). rewrite signal_rows_eq in X at 1.
    specialize (X (in_map draw _ _ (Permutation_in _ (Permutation_sym (ordered_perm l)) I))). assert (Y := draw_length s H0 H1). unfold zlen in Y. lia.
  - intros k' L F. assert (row_length (signal_rows l) <= 24 * k')%nat; [|lia]. apply row_length_less. intros r R. rewrite signal_rows_eq in R. apply in_map_iff in R as (s & <- & R).
    apply (Permutation_in _ (ordered_perm l)) in R. destruct (D s R) as [H0 H1]. assert (X := proj1 (fits_one s k' H1) (fun p => F s p R)). assert (Y := draw_length s H0 H1). unfold zlen in Y. lia.
Qed.

(** ** The text *)
Lemma flat_nth {A B} (f : A -> list B) xs b k x d : nth_error xs b = Some x -> (k < List.length (f x))%nat ->
  nth (List.length (flat_map f (firstn b xs)) + k) (flat_map f xs) d = nth k (f x) d.
Proof.
  revert xs. induction b as [|b IH]; intros [|y xs] E K; try discriminate.
  - injection E as ->. cbn [firstn flat_map List.length Nat.add]. now rewrite app_nth1.
  - cbn [firstn flat_map]. rewrite app_length, app_nth2 by lia. replace (_ + _ + k - _)%nat with (List.length (flat_map f (firstn b xs)) + k)%nat by lia. now apply IH.
Qed.
Lemma flat_step {A B} (f : A -> list B) xs b x : nth_error xs b = Some x ->
  List.length (flat_map f (firstn (S b) xs)) = (List.length (flat_map f (firstn b xs)) + List.length (f x))%nat.
Proof.
  revert xs. induction b as [|b IH]; intros [|y xs] E; try discriminate.
  - injection E as ->. cbn. rewrite app_nil_r. lia.
  - change (firstn (S (S b)) (y :: xs)) with (y :: firstn (S b) xs). cbn [flat_map]. rewrite app_length, (IH xs E). cbn [firstn flat_map]. rewrite app_length. lia.
Qed.
Lemma flat_all {A B} (f : A -> list B) xs b x : nth_error xs b = Some x -> (List.length (flat_map f (firstn b xs)) + List.length (f x) <= List.length (flat_map f xs))%nat.
Proof.
  intros E. rewrite <- (flat_step f xs b x E). rewrite <- (firstn_skipn (S b) xs) at 2. rewrite flat_map_app, app_length. lia.
Qed.
Lemma axis_nth ls k : (k < List.length ls)%nat -> exists a, List.length a = 2%nat /\ nth k (axis ls) [] = a ++ nth k ls [].
Proof.
  intros K. unfold axis. cbv zeta. set (n := zlen ls - 3). set (ls' := if n <? 5 then _ else _). set (st := Z.to_nat _). set (a := repeat (txt "  ") st ++ _).
  assert (E : nth k ls' [] = nth k ls []). { subst ls'. destruct (n <? 5); [now apply app_nth1|reflexivity]. }
  assert (LL : (List.length ls <= List.length ls')%nat). { subst ls'. destruct (n <? 5); [rewrite app_length; lia|lia]. }
  assert (LA : (List.length ls' <= List.length a)%nat). { subst a. rewrite !app_length, !repeat_length. cbn [List.length]. lia. }
  assert (A2 : Forall (fun x => List.length x = 2%nat) a).
  { subst a. rewrite !Forall_app. split; [|split].
    - rewrite Forall_forall. intros x H. apply repeat_spec in H. now subst x.
    - repeat constructor.
    - rewrite Forall_forall. intros x H. apply repeat_spec in H. now subst x. }
  clearbody ls' a. exists (nth k a []). split.
  - rewrite Forall_forall in A2. apply A2. apply nth_In. lia.
  - rewrite <- E. clear -K LL LA. assert (K' : (k < List.length ls')%nat) by lia. clear K LL. revert k ls' LA K'. induction a as [|x a IH]; intros k [|y ls'] LA K; cbn [List.length] in *; try lia.
    destruct k as [|k]; [reflexivity|]. cbn [combine map nth]. apply IH; lia.
Qed.
Lemma axis_length ls : (List.length ls <= List.length (axis ls))%nat.
Proof.
  unfold axis. cbv zeta. rewrite map_length, combine_length, !app_length, !repeat_length. cbn [List.length]. destruct (_ <? 5); [rewrite app_length|]; lia.
Qed.
Lemma rstrip_app x y : rstrip y <> [] -> rstrip (x ++ y) = x ++ rstrip y.
Proof.
  intros N. induction x as [|c x IH]; [reflexivity|]. cbn [app rstrip]. rewrite IH. destruct (x ++ rstrip y) eqn:E; [|reflexivity]. apply app_eq_nil in E. destruct E. contradiction.
Qed.
Lemma rstrip_mark c y : is_white c = false -> rstrip (c :: y) = c :: rstrip y.
Proof. intros W. cbn [rstrip]. destruct (rstrip y); [|reflexivity]. now rewrite W. Qed.
Lemma rstrip_line x : rstrip (x ++ ["|"%char]) = x ++ ["|"%char].
Proof. rewrite rstrip_app; [reflexivity|discriminate]. Qed.

Lemma put_app n c x y : (n < List.length x)%nat -> put n c (x ++ y) = put n c x ++ y.
Proof.
  intros H. unfold put. rewrite firstn_app, skipn_app. replace (n - List.length x)%nat with O by lia. cbn [firstn skipn]. rewrite app_nil_r.
  destruct (skipn n x) as [|z r] eqn:E; [|cbn [app]; now rewrite <- app_assoc]. apply (f_equal (@List.length _)) in E. rewrite skipn_length in E. cbn in E. lia.
Qed.
Lemma put_length n c x : List.length (put n c x) = List.length x.
Proof. revert n. induction x as [|z x IH]; intros [|n]; try reflexivity. unfold put in *. cbn [firstn skipn app List.length]. now rewrite IH. Qed.
Lemma put_nth n c x i d : (n < List.length x)%nat -> nth i (put n c x) d = if (i =? n)%nat then c else nth i x d.
Proof.
  revert n i. induction x as [|z x IH]; intros [|n] [|i] H; cbn [List.length] in H; try lia; try reflexivity. unfold put in *. cbn [firstn skipn app nth]. rewrite IH by lia. reflexivity.
Qed.
Definition bar_column (w : nat) (bit : Z) : nat := (w + 2 + Z.to_nat (4 * (7 - bit)))%nat.
Lemma label_line_shape w all x : 0 <= fst x < 8 -> (forall o, In o all -> 0 <= fst o < 8) ->
  exists pre, label_line w all x = pre ++ snd x /\ List.length pre = bar_column w (fst x) /\
    forall c, nth c pre " "%char = if existsb (fun o => (fst o >? fst x) && (c =? bar_column w (fst o))%nat) all then "|"%char else " "%char.
Proof.
  intros X R. unfold label_line. cbv zeta.
  assert (G : forall line pre, line = pre ++ snd x -> List.length pre = bar_column w (fst x) ->
    exists pre', fold_left (fun line o => if fst o >? fst x then put (w + 2 + Z.to_nat (4 * (7 - fst o))) "|" line else line) all line = pre' ++ snd x /\ List.length pre' = bar_column w (fst x) /\
      forall c, nth c pre' " "%char = if existsb (fun o => (fst o >? fst x) && (c =? bar_column w (fst o))%nat) all then "|"%char else nth c pre " "%char).
  { induction all as [|o all IH]; intros line pre E L; [exists pre; repeat split; auto|]. cbn [fold_left existsb]. assert (RO := R o (or_introl eq_refl)). destruct (fst o >? fst x) eqn:C.
    - assert (LT : (w + 2 + Z.to_nat (4 * (7 - fst o)) < List.length pre)%nat) by (rewrite L; unfold bar_column; lia).
      destruct (IH (fun o' H => R o' (or_intror H)) (put (w + 2 + Z.to_nat (4 * (7 - fst o))) "|" line) (put (w + 2 + Z.to_nat (4 * (7 - fst o))) "|" pre)) as (pre' & P1 & P2 & P3).
      + rewrite E. now apply put_app.
      + now rewrite put_length.
      + exists pre'. repeat split; [exact P1|exact P2|]. intros c. rewrite P3, put_nth by exact LT. fold (bar_column w (fst o)). cbn [andb].
        destruct (c =? bar_column w (fst o))%nat; cbn [orb]; [now destruct (existsb _ all)|reflexivity].
    - cbn [andb orb]. exact (IH (fun o' H => R o' (or_intror H)) line pre E L). }
  destruct (G (blanks (4 * (7 - fst x)) ++ repeat " "%char w ++ txt "  " ++ snd x) (blanks (4 * (7 - fst x)) ++ repeat " "%char w ++ txt "  ")) as (pre & P1 & P2 & P3).
  - now rewrite <- !app_assoc.
  - unfold blanks, rep, bar_column. rewrite !app_length, !repeat_length. cbn [List.length txt list_ascii_of_string]. lia.
  - exists pre. repeat split; [exact P1|exact P2|]. intros c. rewrite P3. destruct (existsb _ all); [reflexivity|].
    change (txt "  ") with (repeat " "%char 2). unfold blanks, rep. rewrite <- !repeat_app. rewrite nth_repeat. now destruct (_ <? _)%nat.
Qed.
Lemma chars_leb_total a b : chars_leb a b = false -> chars_leb b a = true.
Proof.
  revert b. induction a as [|x a IH]; intros [|y b]; cbn [chars_leb]; try discriminate; try reflexivity. rewrite (Ascii.eqb_sym y x). destruct (Ascii.eqb_spec x y) as [E|N]; [apply IH|].
  rewrite Nat.ltb_ge, Nat.ltb_lt. intros H. assert (nat_of_ascii x <> nat_of_ascii y); [|lia]. intros E. apply N. rewrite <- (ascii_nat_embedding x), <- (ascii_nat_embedding y). now f_equal.
Qed.
Lemma chars_leb_trans a b c : chars_leb a b = true -> chars_leb b c = true -> chars_leb a c = true.
Proof.
  revert b c. induction a as [|x a IH]; intros [|y b] [|z c]; cbn [chars_leb]; try discriminate; try reflexivity.
  destruct (Ascii.eqb_spec x y) as [<-|N1].
  - destruct (Ascii.eqb_spec x z); [apply IH|auto].
  - destruct (Ascii.eqb_spec y z) as [<-|N2].
    + intros H _. destruct (Ascii.eqb_spec x y); [contradiction|exact H].
    + rewrite !Nat.ltb_lt. intros H1 H2. destruct (Ascii.eqb_spec x z) as [<-|N3]; [lia|]. rewrite Nat.ltb_lt. lia.
Qed.
Lemma label_leb_total x y : label_leb x y = false -> label_leb y x = true.
Proof.
  unfold label_leb. rewrite !orb_false_iff, !orb_true_iff, !andb_false_iff, !andb_true_iff, !Z.ltb_ge, !Z.ltb_lt, !Z.eqb_neq, !Z.eqb_eq. intros [H [H1|H1]]; [left; lia|].
  apply chars_leb_total in H1. destruct (Z.eq_dec (fst y) (fst x)); [right; auto|left; lia].
Qed.
Lemma label_leb_trans x y z : label_leb x y = true -> label_leb y z = true -> label_leb x z = true.
Proof.
  unfold label_leb. rewrite !orb_true_iff, !andb_true_iff, !Z.ltb_lt, !Z.eqb_eq. intros [H1|[H1 H2]] [H3|[H3 H4]]; try (left; lia). right. split; [lia|]. now apply chars_leb_trans with (snd y).
Qed.
(** The bit below which the name of a signal stands: the least significant one of a big endian signal and the most significant one of a little endian signal *)
Definition named_bit (s : signal) : Z := bit_pos s (if s_big s then 0 else s_length s - 1).
Lemma name_bit_eq s : 0 < s_length s -> name_bit s = named_bit s.
Proof.
  intros HL. unfold name_bit, named_bit. destruct (s_big s) eqn:B.
  - apply net_eq. rewrite (bit_pos_big s 0 B) by lia. fold (net (start_bit s + s_length s - 1)). rewrite net_invol. lia.
  - rewrite bit_pos_little, start_bit_little by exact B. lia.
Qed.
Definition named_in (b : nat) (s : signal) : bool := named_bit s / 8 =? Z.of_nat b.
Lemma labels_of l b : drawn l -> exists sgs, Permutation (filter (named_in b) l) sgs /\ labels l b = map (fun s => (named_bit s mod 8, label_text s)) sgs /\
  StronglySorted (fun s s' => named_bit s mod 8 <= named_bit s' mod 8) sgs.
Proof.
  intros D. unfold labels. assert (E1 : filter (fun s => name_bit s / 8 =? Z.of_nat b) l = filter (named_in b) l).
  { apply filter_ext_in. intros s I. unfold named_in. now rewrite name_bit_eq by apply (D s I). }
  rewrite E1. assert (E2 : map (fun s => (name_bit s mod 8, label_text s)) (filter (named_in b) l) = map (fun s => (named_bit s mod 8, label_text s)) (filter (named_in b) l)).
  { apply map_ext_in. intros s I. apply filter_In in I. now rewrite name_bit_eq by apply (D s (proj1 I)). }
  rewrite E2. set (f := fun s => (named_bit s mod 8, label_text s)). set (q := filter (named_in b) l). clearbody q.
  destruct (Permutation_map_inv f q (sorted_py_perm label_leb (map f q))) as (sgs & S1 & S2). exists sgs. repeat split; [exact S2|exact S1|].
  assert (SS := sorted_py_sorted label_leb label_leb_total label_leb_trans (map f q)). rewrite S1 in SS. clear -SS. induction sgs as [|s sgs IH]; [constructor|]. cbn [map] in SS. inversion SS as [|x y S F]; subst. constructor; [now apply IH|].
  rewrite Forall_forall in *. intros s' H. specialize (F (f s') (in_map f _ _ H)). unfold label_leb in F. cbn [f fst] in F. rewrite orb_true_iff, andb_true_iff, Z.ltb_lt, Z.eqb_eq in F. lia.
Qed.
