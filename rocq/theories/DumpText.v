(** DumpText: the drawings that the dump command prints consist of lines without white space at their end (lemmas for C81). *)
From Coq Require Import Ascii.
From Verif Require Import Base PyNum Conversion Signal Message CSource CNames Regex DbcNames DbcToken Logreader DecodeCmd Arxml DictLemmas DecText ListCmd DumpCmd.
From Verif Require Draw DrawProofs TreeDraw TreeProofs Prop_TreeDraw Prop_Invert.
Local Open Scope string_scope.
Local Open Scope Z_scope.
Local Open Scope list_scope.
Notation newline := TreeDraw.newline.
Notation white := Draw.is_white.

(** ** Lines *)
Definition unbroken (l : chars) : Prop := Forall (fun c => line_end c = false) l.
Definition neat (l : chars) : Prop := unbroken l /\ Draw.rstrip l = l.
(** A text of such lines, the last of which is not empty *)
Definition solid (t : chars) : Prop := Forall neat (split_on newline t) /\ last (split_on newline t) [] <> [].
Definition tab (l : chars) : chars := match l with [] => [] | _ => txt "    " ++ l end.

Lemma end_white c : line_end c = true -> white c = true.
Proof.
  unfold line_end, Draw.is_white. intros H. apply orb_prop in H. destruct H as [H|H]; apply andb_prop in H; destruct H as [A B]; apply Nat.leb_le in A, B.
  - assert (X : (9 <=? nat_of_ascii c)%nat = true) by (apply Nat.leb_le; lia). assert (Y : (nat_of_ascii c <=? 13)%nat = true) by (apply Nat.leb_le; lia). rewrite X, Y. now rewrite orb_true_r.
  - assert (X : (28 <=? nat_of_ascii c)%nat = true) by (apply Nat.leb_le; lia). assert (Y : (nat_of_ascii c <=? 31)%nat = true) by (apply Nat.leb_le; lia). rewrite X, Y. now rewrite !orb_true_r.
Qed.
Lemma unbroken_app a b : unbroken (a ++ b) <-> unbroken a /\ unbroken b.
Proof. apply Forall_app. Qed.
Lemma split_cons c x l : exists w ws, split_on c l = w :: ws /\ split_on c (x :: l) = if Ascii.eqb x c then [] :: w :: ws else (x :: w) :: ws.
Proof. cbn [split_on]. destruct (split_on c l) as [|w ws] eqn:E; [|exists w, ws; now destruct (Ascii.eqb x c)]. destruct l as [|y l]; [discriminate|]. cbn in E. destruct (Ascii.eqb y c); [discriminate|]. destruct (split_on c l); discriminate. Qed.
Lemma split_some c l : exists w ws, split_on c l = w :: ws.
Proof. destruct l as [|x l]; [now exists [], []|]. destruct (split_cons c x l) as (w & ws & _ & E). rewrite E. destruct (Ascii.eqb x c); eauto. Qed.
Lemma splitlines_eq t : forall line w ws, split_on newline t = w :: ws -> Forall unbroken (w :: ws) -> last ((line ++ w) :: ws) [] <> [] -> splitlines_aux line t = (line ++ w) :: ws.
Proof.
  induction t as [|c t IH]; intros line w ws E F N.
  - cbn in E. injection E as <- <-. rewrite app_nil_r in *. cbn in N |- *. now destruct line.
  - destruct (split_cons newline c t) as (w' & ws' & E1 & E2). rewrite E2 in E. cbn [splitlines_aux]. destruct (Ascii.eqb_spec c newline) as [->|NE].
    + injection E as <- <-. rewrite app_nil_r in *. change (line_end newline) with true. cbn iota.
      match goal with |- _ :: splitlines_aux [] ?X = _ => assert (R : X = t) by now destruct t end. rewrite R. apply (f_equal (cons line)). apply (IH [] w' ws' E1); [now inversion F|exact N].
    + injection E as <- <-. inversion F as [|? ? U F']; subst. inversion U as [|? ? C U']; subst. rewrite C. rewrite (IH (line ++ [c]) w' ws' E1); rewrite <- ?app_assoc; cbn [List.app]; [reflexivity|now constructor|exact N].
Qed.
Lemma neat_tab l : neat l -> Draw.rstrip (txt "    " ++ l) = tab l.
Proof. intros [_ R]. destruct l as [|c l]; [reflexivity|]. unfold tab. rewrite DrawProofs.rstrip_app; now rewrite R. Qed.
Lemma indented_eq t : solid t -> indented t = map tab (split_on newline t).
Proof.
  intros [F N]. unfold indented, splitlines. destruct (split_some newline t) as (w & ws & E). rewrite E in *. rewrite (splitlines_eq t [] w ws E); [|eapply Forall_impl; [|exact F]; now intros l []|exact N].
  cbn [List.app]. cbn [map]. inversion F as [|? ? A B]; subst. rewrite (neat_tab w A). apply (f_equal (cons (tab w))). apply map_ext_Forall. eapply Forall_impl; [|exact B]. intros l L. now apply neat_tab.
Qed.

(** ** Joining *)
Lemma split_app a r : split_on newline (a ++ newline :: r) = split_on newline a ++ split_on newline r.
Proof.
  induction a as [|x a IH]; [reflexivity|]. cbn [List.app]. destruct (split_cons newline x (a ++ newline :: r)) as (w & ws & E1 & E2). destruct (split_cons newline x a) as (v & vs & E3 & E4). rewrite E2, E4. rewrite IH, E3 in E1. cbn [List.app] in E1.
  injection E1 as <- <-. now destruct (Ascii.eqb x newline).
Qed.
Lemma split_join ls : ls <> [] -> split_on newline (TreeDraw.join_lines ls) = flat_map (split_on newline) ls.
Proof.
  induction ls as [|a ls IH]; [contradiction|]. intros _. destruct ls as [|b ls]; [cbn [TreeDraw.join_lines flat_map]; now rewrite app_nil_r|].
  change (TreeDraw.join_lines (a :: b :: ls)) with (a ++ newline :: TreeDraw.join_lines (b :: ls)). rewrite split_app, IH by discriminate. reflexivity.
Qed.
Lemma split_flat l : unbroken l -> split_on newline l = [l].
Proof.
  induction 1 as [|c l C _ IH]; [reflexivity|]. destruct (split_cons newline c l) as (w & ws & E1 & E2). rewrite IH in E1. injection E1 as <- <-. rewrite E2. destruct (Ascii.eqb_spec c newline) as [->|]; [discriminate|reflexivity].
Qed.
Lemma split_lines ls : ls <> [] -> Forall unbroken ls -> split_on newline (TreeDraw.join_lines ls) = ls.
Proof. intros N F. rewrite split_join by exact N. clear N. induction F as [|l ls L _ IH]; [reflexivity|]. cbn [flat_map]. now rewrite split_flat, IH. Qed.
Lemma solid_lines ls : Forall neat ls -> last ls [] <> [] -> solid (TreeDraw.join_lines ls) /\ split_on newline (TreeDraw.join_lines ls) = ls.
Proof.
  intros F N. assert (NE : ls <> []) by (intros ->; now apply N). assert (E : split_on newline (TreeDraw.join_lines ls) = ls) by (apply split_lines; [exact NE|]; eapply Forall_impl; [|exact F]; now intros l []).
  split; [|exact E]. unfold solid. rewrite E. now split.
Qed.
(** Texts whose lines all end in something *)
Definition ends_well (l : chars) : Prop := unbroken l /\ Draw.rstrip l = l /\ l <> [].
Definition firm (t : chars) : Prop := Forall ends_well (split_on newline t).
Lemma ends_char a c : unbroken a -> white c = false -> ends_well (a ++ [c]).
Proof.
  intros U W. assert (L : line_end c = false) by (destruct (line_end c) eqn:E; [apply end_white in E; congruence|reflexivity]). split; [apply unbroken_app; split; [exact U|now repeat constructor]|].
  split; [|now destruct a]. rewrite DrawProofs.rstrip_app; cbn; now rewrite W.
Qed.
Lemma ends_app p l : unbroken p -> ends_well l -> ends_well (p ++ l).
Proof. intros U (A & B & C). split; [now apply unbroken_app|]. split; [rewrite DrawProofs.rstrip_app; now rewrite B|]. destruct p; [exact C|discriminate]. Qed.
Lemma ends_nowhite l : l <> [] -> Forall (fun c => white c = false) l -> ends_well l.
Proof.
  intros N F. destruct (exists_last N) as (a & c & ->). apply Forall_app in F. destruct F as [A C]. apply ends_char; [|now inversion C]. eapply Forall_impl; [|exact A]. intros x W. cbn beta. destruct (line_end x) eqn:E; [|reflexivity]. apply end_white in E. cbn beta in W. congruence.
Qed.
Lemma firm_one l : ends_well l -> firm l.
Proof. intros E. unfold firm. rewrite split_flat by apply E. now constructor. Qed.
Lemma firm_app p t : unbroken p -> firm t -> firm (p ++ t).
Proof.
  intros U F. unfold firm in *. induction U as [|c p C U IH]; [exact F|]. cbn [List.app]. destruct (split_cons newline c (p ++ t)) as (w & ws & E1 & E2). rewrite E2. destruct (Ascii.eqb_spec c newline) as [->|]; [discriminate|].
  rewrite E1 in IH. inversion IH as [|? ? A B]; subst. constructor; [|exact B]. apply (ends_app [c]); [now repeat constructor|exact A].
Qed.
Lemma firm_join ls : ls <> [] -> Forall firm ls -> firm (TreeDraw.join_lines ls).
Proof. intros N F. unfold firm. rewrite split_join by exact N. clear N. induction F as [|l ls L _ IH]; [constructor|]. cbn [flat_map]. now apply Forall_app. Qed.
Lemma last_in {A} (l : list A) d : l <> [] -> In (last l d) l.
Proof. induction l as [|a l IH]; [contradiction|]. intros _. destruct l as [|b l]; [now left|]. right. now apply IH. Qed.
Lemma firm_solid t : firm t -> solid t.
Proof.
  intros F. split; [eapply Forall_impl; [|exact F]; now intros l (A & B & _)|]. destruct (split_some newline t) as (w & ws & E). unfold firm in F. rewrite E in *. rewrite Forall_forall in F. destruct (F (last (w :: ws) [])) as (_ & _ & N); [now apply last_in|exact N].
Qed.

(** ** The layout *)
Lemma unbroken_rep c n : line_end c = false -> unbroken (repeat c n).
Proof. intros H. induction n; constructor; assumption. Qed.
Lemma unbroken_nowhite l : Forall (fun c => white c = false) l -> unbroken l.
Proof. intros F. eapply Forall_impl; [|exact F]. intros x W. cbn beta in *. destruct (line_end x) eqn:E; [|reflexivity]. apply end_white in E. congruence. Qed.
Lemma digit_white c : is_digit c = true -> white c = false.
Proof.
  unfold is_digit, Draw.is_white. intros H. destruct c as [[] [] [] [] [] [] [] []]; first [reflexivity|discriminate H].
Qed.
Lemma decimal_white z : Forall (fun c => white c = false) (decimal z).
Proof.
  assert (P : forall y, 0 <= y -> Forall (fun c => white c = false) (decimal y)).
  { intros y H. apply Forall_forall. intros c I. apply digit_white. assert (D := decimal_digits y H). rewrite forallb_forall in D. now apply D. }
  destruct (Z_lt_le_dec z 0) as [L|L]; [|now apply P]. rewrite decimal_neg by exact L. constructor; [reflexivity|]. apply P. lia.
Qed.
Lemma forall_firstn {A} (P : A -> Prop) n l : Forall P l -> Forall P (firstn n l).
Proof. intros F. rewrite <- (firstn_skipn n l) in F. now apply Forall_app in F. Qed.
Lemma forall_skipn {A} (P : A -> Prop) n l : Forall P l -> Forall P (skipn n l).
Proof. intros F. rewrite <- (firstn_skipn n l) in F. now apply Forall_app in F. Qed.
Lemma forall_chunks {A} (P : A -> Prop) f n l : Forall P l -> Forall (Forall P) (Draw.chunks_aux f n l).
Proof. revert l. induction f as [|f IH]; intros l F; [constructor|]. cbn [Draw.chunks_aux]. destruct l as [|a l]; [constructor|]. constructor; [now apply forall_firstn|]. apply IH. now apply forall_skipn. Qed.
Lemma unbroken_union l : unbroken (Draw.union_row l).
Proof.
  unfold Draw.union_row. apply Forall_map, Forall_forall. intros x _. unfold Draw.union_char. repeat match goal with |- context [if ?b then _ else _] => destruct b end; reflexivity.
Qed.
Lemma unbroken_rows l len : Forall unbroken (Draw.byte_rows l len).
Proof.
  unfold Draw.byte_rows. apply Forall_app. split; [apply forall_chunks, unbroken_union|]. apply Forall_forall. intros x I. apply repeat_spec in I. subst x. now apply unbroken_rep.
Qed.
Lemma separator_ok a b c : line_end (Draw.separator a b c) = false.
Proof. unfold Draw.separator. repeat match goal with |- context [if ?b then _ else _] => destruct b end; reflexivity. Qed.
Lemma unbroken_line row : unbroken row -> unbroken (Draw.byte_line row).
Proof.
  intros U. unfold Draw.byte_line. assert (F := forall_chunks _ (List.length row) 3 row U). fold (Draw.chunks 3 row) in F. revert F. generalize (Draw.chunks 3 row), true, " "%char. clear U.
  intros ts. induction ts as [|t ts IH]; intros first prev F; [now repeat constructor|]. inversion F as [|? ? A B]; subst. cbn [Draw.separate]. constructor; [apply separator_ok|]. apply Forall_app. split; [exact A|now apply IH].
Qed.
(** A name: not empty and without white space *)
Definition word (n : chars) : Prop := n <> [] /\ Forall (fun c => white c = false) n.
(** Something to be seen *)
Definition visible (l : chars) : Prop := exists c, In c l /\ white c = false.
Lemma visible_rstrip l : visible l -> Draw.rstrip l <> [].
Proof.
  intros (c & I & W). induction l as [|x l IH]; [destruct I|]. destruct I as [->|I].
  - cbn. destruct (Draw.rstrip l); [now rewrite W|discriminate].
  - cbn. destruct (Draw.rstrip l); [now destruct (IH I)|discriminate].
Qed.
Lemma visible_app a b : visible b -> visible (a ++ b).
Proof. intros (c & I & W). exists c. split; [apply in_or_app; now right|exact W]. Qed.
Lemma put_ok n l : unbroken l -> unbroken (Draw.put n "|" l).
Proof.
  intros U. unfold Draw.put. apply Forall_app. split; [now apply forall_firstn|]. assert (V := forall_skipn _ n _ U). destruct (skipn n l) as [|x r]; [constructor|]. inversion V; subst. now constructor.
Qed.
Lemma put_visible n l : visible l -> visible (Draw.put n "|" l).
Proof.
  intros (c & I & W). unfold Draw.put. destruct (skipn n l) as [|x r] eqn:E.
  - rewrite app_nil_r. exists c. split; [|exact W]. rewrite <- (firstn_skipn n l) in I. now rewrite E, app_nil_r in I.
  - exists "|"%char. split; [apply in_or_app; right; now left|reflexivity].
Qed.
Lemma label_ok w all x : unbroken (snd x) -> visible (snd x) -> unbroken (Draw.label_line w all x) /\ visible (Draw.label_line w all x).
Proof.
  intros U V. unfold Draw.label_line.
  assert (B : forall (l : list (Z * chars)) line, unbroken line -> visible line -> let r := fold_left (fun line o => if fst o >? fst x then Draw.put (w + 2 + Z.to_nat (4 * (7 - fst o))) "|" line else line) l line in unbroken r /\ visible r).
  { induction l as [|o l IH]; intros line A C; [now split|]. cbn [fold_left]. apply IH; destruct (fst o >? fst x); auto using put_ok, put_visible. }
  apply B.
  - repeat (apply Forall_app; split); try (now apply unbroken_rep); [now repeat constructor|exact U].
  - now repeat apply visible_app.
Qed.
Lemma labels_in l b x : In x (Draw.labels l b) -> exists s, In s l /\ snd x = Draw.label_text s.
Proof.
  unfold Draw.labels. intros I. match type of I with In _ (sorted_py ?f ?X) => assert (P := sorted_py_perm f X) end. eapply Permutation.Permutation_in in I; [|exact P]. apply in_map_iff in I. destruct I as (s & <- & I).
  apply filter_In in I. exists s. now split.
Qed.
Lemma label_text_ok s : word (txt (s_name s)) -> unbroken (Draw.label_text s) /\ visible (Draw.label_text s).
Proof.
  intros [_ F]. split; [apply Forall_app; split; [now repeat constructor|exact (unbroken_nowhite _ F)]|]. exists "+"%char. split; [now left|reflexivity].
Qed.
Definition words (l : list signal) : Prop := forall s, In s l -> word (txt (s_name s)).
Lemma block_ok l w n p : words l -> unbroken (snd p) -> Forall (fun x => unbroken x /\ visible x) (Draw.byte_block true l w n p).
Proof.
  intros W U. unfold Draw.byte_block.
  assert (R : unbroken (repeat " "%char w ++ Draw.rule) /\ visible (repeat " "%char w ++ Draw.rule)).
  { split; [apply Forall_app; split; [now apply unbroken_rep|now repeat constructor]|]. apply visible_app. exists "+"%char. split; [now left|reflexivity]. }
  assert (L : Forall (fun x => unbroken x /\ visible x) (Draw.label_lines w l (fst p))).
  { apply Forall_map, Forall_forall. intros x I. destruct (labels_in _ _ _ I) as (s & Is & E). destruct (label_text_ok s (W s Is)) as [A B]. apply label_ok; now rewrite E. }
  constructor; [|constructor; [exact R|]].
  - unfold Draw.number_line. split.
    + apply Forall_app. split; [now apply unbroken_rep|]. apply Forall_app. split; [apply unbroken_nowhite, decimal_white|]. constructor; [reflexivity|]. now apply unbroken_line.
    + apply visible_app. assert (D := decimal_white (Z.of_nat (fst p))). destruct (decimal (Z.of_nat (fst p))) as [|c r] eqn:E; [now apply decimal_nonnil in E|]. exists c. split; [now left|now inversion D].
  - destruct (Draw.label_lines w l (fst p)) as [|y ls]; [constructor|]. apply Forall_app. split; [exact L|]. destruct (_ <? _)%nat; repeat constructor; apply R.
Qed.
Lemma last_app_forall {A} (P : A -> Prop) a b d : a <> [] -> P (last a d) -> Forall P b -> P (last (a ++ b) d).
Proof.
  intros N H F. destruct b as [|y b]; [now rewrite app_nil_r|]. rewrite Forall_forall in F. apply F. clear F H. assert (E : last (a ++ y :: b) d = last (y :: b) d); [|rewrite E; now apply last_in].
  induction a as [|x a IH]; [contradiction|]. destruct a as [|z a]; [reflexivity|]. change ((x :: z :: a) ++ y :: b) with (x :: (z :: a) ++ y :: b). rewrite <- IH by discriminate. reflexivity.
Qed.
Lemma last_combine {A B C} (f : A * B -> C) a b da db dc : List.length a = List.length b -> a <> [] -> last (map f (combine a b)) dc = f (last a da, last b db).
Proof.
  revert b. induction a as [|x a IH]; intros b L N; [contradiction|]. destruct b as [|y b]; [discriminate|]. destruct a as [|x' a]; destruct b as [|y' b]; try discriminate; [reflexivity|].
  injection L as L. change (last (map f (combine (x :: x' :: a) (y :: y' :: b))) dc) with (last (map f (combine (x' :: a) (y' :: b))) dc). rewrite (IH (y' :: b)); [reflexivity|cbn; now rewrite L|discriminate].
Qed.
Lemma axis_ok ls : (4 <= List.length ls)%nat -> Forall unbroken ls -> visible (last ls []) -> Forall unbroken (Draw.axis ls) /\ visible (last (Draw.axis ls) []).
Proof.
  intros L4 F V. unfold Draw.axis. set (n := zlen ls - 3). set (ls' := if n <? 5 then ls ++ repeat (Draw.txt "     ") (Z.to_nat (5 - n)) else ls).
  set (start := Z.to_nat (Z.max (4 + ((n - 4) / 2 - 1)) 4)).
  assert (F' : Forall unbroken ls').
  { unfold ls'. destruct (n <? 5); [|exact F]. apply Forall_app. split; [exact F|]. apply Forall_forall. intros x I. apply repeat_spec in I. subst x. now repeat constructor. }
  assert (LS : (start + 4 <= List.length ls')%nat).
  { unfold ls', start, n, zlen. destruct (Z.ltb_spec (Z.of_nat (List.length ls) - 3) 5).
    - rewrite app_length, repeat_length. assert ((Z.of_nat (List.length ls) - 3 - 4) / 2 <= 0) by (apply Z.div_le_upper_bound; lia). lia.
    - assert ((Z.of_nat (List.length ls) - 3 - 4) / 2 <= (Z.of_nat (List.length ls) - 7)) by (apply Z.div_le_upper_bound; lia). 
      assert (0 <= (Z.of_nat (List.length ls) - 3 - 4) / 2) by (apply Z.div_pos; lia). lia. }
  set (a := repeat (Draw.txt "  ") start ++ [Draw.txt " B"; Draw.txt " y"; Draw.txt " t"; Draw.txt " e"] ++ repeat (Draw.txt "  ") (List.length ls' - start - 4)).
  assert (LA : List.length a = List.length ls') by (unfold a; rewrite !app_length, !repeat_length; cbn [List.length]; lia).
  assert (UA : Forall unbroken a).
  { unfold a. apply Forall_app. split; [apply Forall_forall; intros x I; apply repeat_spec in I; subst x; now repeat constructor|]. apply Forall_app. split; [repeat constructor|]. apply Forall_forall; intros x I; apply repeat_spec in I; subst x; now repeat constructor. }
  split.
  - apply Forall_map, Forall_forall. intros [x y] I. cbn [fst snd]. apply unbroken_app. rewrite Forall_forall in UA, F'. split; [apply UA; now apply in_combine_l in I|apply F'; now apply in_combine_r in I].
  - rewrite (last_combine _ a ls' [] []); [|exact LA|unfold a; destruct (repeat (Draw.txt "  ") start); discriminate]. cbn [fst snd]. destruct (Z.ltb_spec n 5) as [S|S].
    + assert (E : start = 4%nat). { unfold start. assert ((n - 4) / 2 <= 0) by (apply Z.div_le_upper_bound; lia). lia. }
      assert (E' : List.length ls' = 8%nat). { unfold ls'. destruct (Z.ltb_spec n 5); [|lia]. rewrite app_length, repeat_length. unfold n, zlen in *. lia. }
      unfold a. rewrite E, E'. cbn. exists "e"%char. split; [right; now left|reflexivity].
    + apply visible_app. unfold ls'. destruct (Z.ltb_spec n 5); [lia|exact V].
Qed.
Lemma neat_rstrip l : unbroken l -> neat (Draw.rstrip l).
Proof.
  intros U. induction U as [|c l C U IH]; [split; [constructor|reflexivity]|]. destruct IH as [A B]. cbn [Draw.rstrip]. destruct (Draw.rstrip l) as [|d r] eqn:E.
  - destruct (white c) eqn:W; [split; [constructor|reflexivity]|]. split; [now repeat constructor|]. cbn. now rewrite W.
  - split; [now constructor|]. change (Draw.rstrip (c :: d :: r)) with (match Draw.rstrip (d :: r) with [] => if white c then [] else [c] | r' => c :: r' end). now rewrite B.
Qed.
Lemma last_map {A B} (f : A -> B) l d d' : l <> [] -> last (map f l) d' = f (last l d).
Proof. induction l as [|a l IH]; [contradiction|]. intros _. destruct l as [|b l]; [reflexivity|]. change (last (map f (b :: l)) d' = f (last (b :: l) d)). apply IH. discriminate. Qed.
Lemma layout_solid m : words (m_signals m) -> solid (Draw.layout_string m true).
Proof.
  intros W. unfold Draw.layout_string. set (D := Draw.drawing true (m_signals m) (m_length m)). change (Draw.join_lines D) with (TreeDraw.join_lines D). 
  assert (X : Forall neat D /\ last D [] <> []); [|now apply solid_lines].
  unfold D, Draw.drawing. set (rows := Draw.byte_rows (m_signals m) (m_length m)). set (n := List.length rows). set (w := Draw.number_width n).
  set (blocks := flat_map (Draw.byte_block true (m_signals m) w n) (combine (seq 0 n) rows)).
  assert (B : Forall (fun x => unbroken x /\ visible x) blocks).
  { apply Forall_forall. intros x I. apply in_flat_map in I. destruct I as (p & I & J). assert (U : unbroken (snd p)). { destruct p as [i r]. apply in_combine_r in I. assert (R := unbroken_rows (m_signals m) (m_length m)). rewrite Forall_forall in R. now apply R. }
    assert (K := block_ok (m_signals m) w n p W U). rewrite Forall_forall in K. now apply K. }
  assert (H : Forall unbroken (Draw.header w)).
  { unfold Draw.header. repeat constructor; try (apply Forall_app; split); try (now apply unbroken_rep); now repeat constructor. }
  destruct (axis_ok (Draw.header w ++ blocks)) as [A V].
  - rewrite app_length. cbn. lia.
  - apply Forall_app. split; [exact H|]. eapply Forall_impl; [|exact B]. now intros x [].
  - apply (last_app_forall visible); [discriminate| |eapply Forall_impl; [|exact B]; now intros x []]. cbn [last Draw.header]. apply visible_app. exists "+"%char. split; [now left|reflexivity].
  - split; [apply Forall_map; eapply Forall_impl; [|exact A]; intros x; apply neat_rstrip|]. intros Z. apply (visible_rstrip _ V). refine (eq_trans (eq_sym (last_map Draw.rstrip _ [] [] _)) Z). intros E. rewrite E in V. destruct V as (c & [] & _).
Qed.

(** ** The tree *)
Lemma set_in {V} (d : list (string * V)) k v p : In p (sset d k v) -> In p d \/ p = (k, v).
Proof.
  unfold sset. induction d as [|[k' v'] d IH]; cbn; [intros [<-|[]]; now right|]. destruct (String.eqb_spec k' k) as [->|]; intros [<-|I]; auto. destruct (IH I); auto.
Qed.
Lemma get_signal_in sigs n s : get_signal sigs n = Ok s -> In s sigs /\ s_name s = n.
Proof.
  unfold get_signal, sget_exn, signal_dict. intros H.
  assert (I : forall l d, (forall p, In p d -> In (snd p) sigs /\ s_name (snd p) = fst p) -> (forall x, In x l -> In x sigs) -> forall p, In p (fold_left (fun d s => sset d (s_name s) s) l d) -> In (snd p) sigs /\ s_name (snd p) = fst p).
  { induction l as [|x l IH]; intros d D L p P; [now apply D|]. cbn [fold_left] in P. eapply IH in P; [exact P| |intros; apply L; now right]. intros q Q. apply set_in in Q. destruct Q as [Q| ->]; [now apply D|]. split; [apply L; now left|reflexivity]. }
  match type of H with match sget ?D n with _ => _ end = _ => destruct (sget D n) as [t|] eqn:E; [|discriminate] end. injection H as ->. apply (get_in _ sspec) in E. apply (I sigs [] (fun p (F : In p []) => match F with end) (fun x X => X) _ E).
Qed.
Definition texts_fine (l : list signal) : Prop := forall s ch p, In s l -> conv_choices (s_conv s) = Some ch -> In p ch -> ends_well (TreeDraw.choice_text (snd p)).
Lemma line_firm sigs w n t : words sigs -> TreeDraw.format_signal_line sigs w n = Ok t -> firm t.
Proof.
  intros W H. unfold TreeDraw.format_signal_line in H. apply bind_ok in H. destruct H as (s & G & H). apply bind_ok in H. destruct H as (ls & L & H). injection H as <-. apply get_signal_in in G. destruct G as [I <-]. destruct (W s I) as [NE F].
  unfold TreeDraw.wrap_word in L. destruct (w - 2 <=? 0); [discriminate|]. change (TreeDraw.txt (s_name s)) with (txt (s_name s)) in L. destruct (txt (s_name s)) as [|c r] eqn:E; [contradiction|]. rewrite <- E in *.
  assert (OI : forall a b : list chars, Ok a = Ok b -> a = b) by (intros a b X; now injection X). apply OI in L. subst ls. set (k := Z.to_nat (Z.max 1 (w - 2 - 4))). assert (K : exists k', k = S k') by (exists (pred k); unfold k; lia).
  apply firm_join; [discriminate|]. constructor.
  - apply firm_app; [now repeat constructor|]. apply firm_one, ends_nowhite; [|now apply forall_firstn]. destruct K as [k' ->]. rewrite E. discriminate.
  - apply Forall_map, Forall_forall. intros x X. apply firm_one, ends_char; [now apply unbroken_rep|]. assert (Y := forall_skipn _ k _ F). rewrite Forall_forall in Y. now apply Y.
Qed.
Lemma firm_prefix p ls : unbroken p -> Forall firm ls -> Forall firm (TreeDraw.add_prefix p ls).
Proof. intros U F. apply Forall_map. eapply Forall_impl; [|exact F]. intros l L. now apply firm_app. Qed.
Lemma prefix_unbroken {A} (r : list A) : unbroken (TreeDraw.get_prefix r).
Proof. destruct r; now repeat constructor. Qed.
Lemma desc_firm sigs sel i : texts_fine sigs -> In sel sigs -> firm (txt "+-- " ++ TreeDraw.multiplexer_desc sel i).
Proof.
  intros T I. apply firm_app; [now repeat constructor|]. apply firm_one. unfold TreeDraw.multiplexer_desc.
  assert (D : ends_well (decimal i)) by (apply ends_nowhite; [apply decimal_nonnil|apply decimal_white]). destruct (conv_choices (s_conv sel)) as [ch|] eqn:C; [|exact D]. destruct (zget ch i) as [c|] eqn:G; [|exact D].
  apply (get_in _ zspec) in G. apply ends_app; [apply (T sel ch (i, c) I C G)|]. apply ends_app; [now repeat constructor|]. apply ends_char; [apply unbroken_nowhite, decimal_white|reflexivity].
Qed.
Lemma mux_firm sigs sel rows : texts_fine sigs -> In sel sigs -> Forall (fun p => Forall firm (snd p)) rows -> Forall firm (TreeDraw.mux_lines sel rows).
Proof.
  intros T I F. induction F as [|[i ls] rows A F IH]; [constructor|]. cbn [TreeDraw.mux_lines]. constructor; [now apply (desc_firm sigs)|]. apply Forall_app. split; [apply firm_prefix; [apply prefix_unbroken|exact A]|exact IH].
Qed.
Lemma level_firm sigs w t : words sigs -> texts_fine sigs -> forall ls, TreeDraw.level_lines sigs w t = Ok ls -> Forall firm ls.
Proof.
  intros W T. induction t as [nodes IH] using Prop_Invert.stree_induction. intros ls H. rewrite Prop_TreeDraw.level_eq in H. revert ls H. induction nodes as [|[n sub] r IHr]; intros ls H.
  - injection H as <-. constructor.
  - cbn [Prop_TreeDraw.level_go] in H. apply bind_ok in H. destruct H as (b & B & H). apply bind_ok in H. destruct H as (line & L & H). apply bind_ok in H. destruct H as (rest & R & H). injection H as <-.
    constructor; [now apply (line_firm sigs w n)|]. apply Forall_app. split; [|apply IHr; [intros n' cs i t' N1 N2 ls' L'; exact (IH n' cs i t' (or_intror N1) N2 ls' L')|exact R]].
    unfold Prop_TreeDraw.level_below in B. destruct sub as [ids|]; [|injection B as <-; constructor]. apply bind_ok in B. destruct B as (sel & G & B). apply bind_ok in B. destruct B as (rows & M & B). injection B as <-.
    apply firm_prefix; [apply prefix_unbroken|]. apply get_signal_in in G. destruct G as [Is _]. apply (mux_firm sigs); [exact T|exact Is|]. 
    assert (F : Forall (fun p => Forall firm (snd p)) rows).
    { apply mapM_ok in M. apply Forall_forall. intros p P. assert (Q : exists q, In q ids /\ (let* ls := TreeDraw.level_lines sigs w (snd q) in Ok (fst q, ls)) = Ok p).
      { clear - M P. induction M as [|a c l l' X M IHM]; [destruct P|]. destruct P as [<-|P]; [exists a; split; [now left|exact X]|]. destruct (IHM P) as (q & Q & Y). exists q. split; [now right|exact Y]. }
      destruct Q as (q & Q & X). apply bind_ok in X. destruct X as (ls & X & Y). injection Y as <-. cbn [snd]. destruct q as [i t]. eapply IH; [now left|exact Q|exact X]. }
    unfold sort_cases. rewrite Forall_forall in *. intros p P. apply F. eapply Permutation.Permutation_in; [apply sorted_py_perm|exact P].
Qed.
Lemma tree_solid m w t : words (m_signals m) -> texts_fine (m_signals m) -> TreeDraw.signal_tree_string m w = Ok t -> solid t.
Proof.
  intros W T H. unfold TreeDraw.signal_tree_string, TreeDraw.tree_lines in H. apply bind_ok in H. destruct H as (ls & L & H). apply bind_ok in L. destruct L as (l & L & E). assert (OI : forall A (a b : A), Ok a = Ok b -> a = b) by (intros A a b X; now injection X). apply OI in E, H. subst ls t.
  apply firm_solid, firm_join; [discriminate|]. constructor; [apply firm_one; split; [now repeat constructor|now split]|]. apply firm_prefix; [now repeat constructor|]. now apply (level_firm (m_signals m) w (m_tree m)).
Qed.

(** ** The tables of values *)
Lemma choices_solid m : words (m_signals m) -> texts_fine (m_signals m) -> TreeDraw.choices_lines m = [] \/
  (solid (TreeDraw.signal_choices_string m) /\ split_on newline (TreeDraw.signal_choices_string m) = TreeDraw.choices_lines m /\ TreeDraw.signal_choices_string m <> []).
Proof.
  intros W T. unfold TreeDraw.signal_choices_string.
  assert (F : Forall neat (TreeDraw.choices_lines m) /\ (TreeDraw.choices_lines m = [] \/ last (TreeDraw.choices_lines m) [] <> [])).
  { unfold TreeDraw.choices_lines. induction (m_signals m) as [|s r IH]; [split; [constructor|now left]|]. destruct IH as [IF IL]; [intros x X; apply W; now right|intros x ch p X; apply T; now right|].
    cbn [flat_map]. destruct (conv_choices (s_conv s)) as [[|c l]|] eqn:C; [now split| |now split].
    assert (NB : Forall ends_well (TreeDraw.txt (s_name s) :: map (fun p => TreeDraw.txt "    " ++ decimal (fst p) ++ TreeDraw.txt " " ++ TreeDraw.choice_text (snd p)) (sort_cases (c :: l)))).
    { constructor; [destruct (W s) as [N F]; [now left|]; now apply ends_nowhite|]. apply Forall_map, Forall_forall. intros p P. unfold sort_cases in P. eapply Permutation.Permutation_in in P; [|apply sorted_py_perm].
      apply ends_app; [now repeat constructor|]. apply ends_app; [apply unbroken_nowhite, decimal_white|]. apply ends_app; [now repeat constructor|]. apply (T s (c :: l) p); [now left|exact C|exact P]. }
    split.
    - apply Forall_app. split; [|exact IF]. constructor; [split; [constructor|reflexivity]|]. eapply Forall_impl; [|exact NB]. now intros x (A & B & _).
    - right. set (blk := [] :: TreeDraw.txt (s_name s) :: map (fun p => TreeDraw.txt "    " ++ decimal (fst p) ++ TreeDraw.txt " " ++ TreeDraw.choice_text (snd p)) (sort_cases (c :: l))) in *.
      assert (LB : last blk [] <> []). { unfold blk. match goal with |- last ([] :: ?X) [] <> [] => change (last X [] <> []); assert (H : In (last X []) X) by (apply last_in; discriminate) end. rewrite Forall_forall in NB. apply NB in H. apply H. }
      destruct IL as [->|IL]; [now rewrite app_nil_r|]. match goal with |- last (_ ++ ?R) _ <> _ => destruct R as [|y R'] eqn:ER; [now rewrite app_nil_r|] end.
      assert (E : forall (a : list chars) y b, last (a ++ y :: b) [] = last (y :: b) []); [|now rewrite E]. intros a y' b. induction a as [|x a IHa]; [reflexivity|]. cbn [List.app]. rewrite <- IHa. now destruct a. }
  destruct F as [F [L|L]]; [now left|]. right. destruct (solid_lines _ F L) as [S E]. split; [exact S|]. split; [exact E|]. intros N. rewrite N in E. cbn in E. rewrite <- E in L. now apply L.
Qed.
