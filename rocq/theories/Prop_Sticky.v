(** Prop_Sticky: C43, the format of a log is fixed by its first recognised line; refutations for C42. *)
From Coq Require Import Ascii.
From Verif Require Import Base CSource Regex RegexLemmas Logreader LogSpec LogProofs LogPcan Prop_Log.
Local Open Scope string_scope.
Local Open Scope Z_scope.
Local Open Scope list_scope.

(** A line in no format *)
Definition unknown_line (l : chars) : Prop := forall p, re_match (pattern_re p) l = None.
(** The formats in the order of preference *)
Definition rank (p : pattern) : nat :=
  match p with
  | PDefault => 0 | PTimestamped => 1 | PLog => 2 | PAbsolute => 3 | PV21 => 4 | PV20 => 5 | PV13 => 6 | PV12 => 7 | PV11 => 8 | PV10 => 9
  end.
Definition first_format (p : pattern) (l : chars) : Prop :=
  re_match (pattern_re p) l <> None /\ forall q, (rank q < rank p)%nat -> re_match (pattern_re q) l = None.

(** What a reader bound to one format yields *)
Fixpoint read_with (p : pattern) (keep : bool) (lines : list chars) : list (chars * option dataframe) * option exn :=
  match lines with
  | [] => ([], None)
  | [] :: _ => ([], None)
  | l :: r =>
      match re_match (pattern_re p) (strip l) with
      | None => let (ys, e) := read_with p keep r in ((if keep then [(strip l, None)] else []) ++ ys, e)
      | Some c =>
          match unpack p c with
          | Err e => ([], Some e)
          | Ok None => let (ys, e) := read_with p keep r in ((if keep then [(strip l, None)] else []) ++ ys, e)
          | Ok (Some d) => let (ys, e) := read_with p keep r in ((strip l, Some d) :: ys, e)
          end
      end
  end.

Lemma detect_first p l : first_format p l -> detect l = Some p.
Proof.
  intros [M R]; unfold detect, all_patterns.
  assert (Y : matches_line l p = true) by (unfold matches_line; destruct (re_match (pattern_re p) l); [reflexivity|contradiction]).
  assert (N : forall q, (rank q < rank p)%nat -> matches_line l q = false) by (intros q H; unfold matches_line; rewrite R by exact H; reflexivity).
  destruct p; cbn [find];
    repeat (match goal with |- (if matches_line l ?q then _ else _) = _ => (rewrite Y; reflexivity) || (rewrite (N q) by (cbn; lia)) end).
Qed.
Lemma detect_unknown l : unknown_line l -> detect l = None.
Proof.
  intros U; unfold detect.
  assert (N : forall q, matches_line l q = false) by (intros q; unfold matches_line; rewrite U; reflexivity).
  unfold all_patterns; cbn [find]; rewrite !N; reflexivity.
Qed.
Lemma find_rank (f : pattern -> bool) p q : find f all_patterns = Some p -> (rank q < rank p)%nat -> f q = false.
Proof.
  intros D L; apply Nat.ltb_lt in L; unfold all_patterns in D; cbn [find] in D.
  repeat (match type of D with (if f ?r then _ else _) = _ =>
            destruct (f r) eqn:?; [injection D as <-; destruct q; try discriminate L; assumption|] end).
  discriminate.
Qed.
Lemma detect_some l p : detect l = Some p -> first_format p l.
Proof.
  intros D; destruct (find_some _ _ D) as [_ M]; split.
  - unfold matches_line in M; intros E; rewrite E in M; discriminate.
  - intros q L; pose proof (find_rank _ p q D L) as F; unfold matches_line in F.
    destruct (re_match (pattern_re q) l); [discriminate|reflexivity].
Qed.

Lemma iter_sticky p keep lines : iterlines (Some p) keep lines = read_with p keep lines.
Proof.
  induction lines as [|l r IH]; [reflexivity|].
  destruct l as [|x l]; [reflexivity|].
  cbn [iterlines read_with]; set (nl := x :: l).
  unfold parse, pmatch.
  destruct (re_match (pattern_re p) (strip nl)) as [c|].
  - destruct (unpack p c) as [[d|]|e]; [| |reflexivity]; rewrite IH; destruct (read_with p keep r) as [ys e]; [reflexivity|destruct keep; reflexivity].
  - rewrite IH; destruct (read_with p keep r) as [ys e]; destruct keep; reflexivity.
Qed.

(** C43: lines before the first recognised one yield no frame; all later lines are read in that one format,
    the first in the order of preference that matches. *)
Theorem C43_first_line_decides : forall keep before l after p,
  Forall (fun x => x <> [] /\ unknown_line (strip x)) before -> l <> [] -> first_format p (strip l) ->
  iterlines None keep (before ++ l :: after) =
  ((if keep then map (fun x => (strip x, None)) before else []) ++ fst (read_with p keep (l :: after)), snd (read_with p keep (l :: after))).
Proof.
  intros keep before l after p B NE F; induction B as [|x before [XN XU] B IH].
  - cbn [map app]; rewrite <- iter_sticky.
    destruct l as [|y l]; [contradiction|]; cbn [iterlines]; unfold parse.
    rewrite (detect_first p _ F).
    match goal with |- ?X = _ => replace ((if keep then [] else []) ++ fst X) with (fst X) by (destruct keep; reflexivity) end.
    apply surjective_pairing.
  - destruct x as [|y x]; [contradiction|].
    cbn [app iterlines]; unfold parse; rewrite (detect_unknown _ XU), IH.
    destruct keep; reflexivity.
Qed.
(** A file without any recognised line yields nothing. *)
Theorem C43_nothing_recognised : forall lines,
  Forall (fun x => unknown_line (strip x)) lines -> iterlines None false lines = ([], None).
Proof.
  intros lines U; induction U as [|x lines XU U IH]; [reflexivity|].
  destruct x as [|y x]; [reflexivity|].
  cbn [iterlines]; unfold parse; rewrite (detect_unknown _ XU), IH; reflexivity.
Qed.
(** Every line is recognised in some format first or in none. *)
Theorem C43_complete : forall l, unknown_line l \/ exists p, first_format p l.
Proof.
  intros l; destruct (detect l) as [p|] eqn:D; [right; exists p; apply detect_some; exact D|left].
  intros p; destruct (re_match (pattern_re p) l) eqn:E; [|reflexivity].
  assert (I : In p all_patterns) by (destruct p; cbn; auto 12).
  apply (find_none _ _ D) in I; unfold matches_line in I; rewrite E in I; discriminate.
Qed.
(** keep_unknowns only adds lines without frame. *)
Definition has_frame (y : chars * option dataframe) : bool := match snd y with Some _ => true | None => false end.
Theorem C43_keep_unknowns : forall st lines,
  fst (iterlines st false lines) = filter has_frame (fst (iterlines st true lines)) /\
  snd (iterlines st false lines) = snd (iterlines st true lines).
Proof.
  intros st lines; revert st; induction lines as [|l r IH]; intros st; [auto|].
  destruct l as [|x l]; [auto|].
  cbn [iterlines]; destruct (parse st (strip (x :: l))) as [st' [[d|]|e]]; [| |auto].
  - specialize (IH st'); destruct (iterlines st' false r) as [y1 e1], (iterlines st' true r) as [y2 e2]; cbn in *.
    destruct IH as [ -> -> ]; auto.
  - specialize (IH st'); destruct (iterlines st' false r) as [y1 e1], (iterlines st' true r) as [y2 e2]; cbn in *; exact IH.
Qed.

(** Line ends do not matter. *)
Lemma drop_none l : head_not cr_lf l -> drop_while cr_lf l = l.
Proof. destruct l; [reflexivity|]; cbn; intros ->; reflexivity. Qed.
Lemma drop_all e l : forallb cr_lf e = true -> head_not cr_lf l -> drop_while cr_lf (e ++ l) = l.
Proof.
  intros E H; induction e as [|x e IH]; [apply drop_none; exact H|].
  cbn in E; apply andb_true_iff in E; cbn; rewrite (proj1 E); apply IH, E.
Qed.
Lemma strip_ends : forall l e,
  Forall (fun x => cr_lf x = false) l -> forallb cr_lf e = true -> strip (l ++ e) = l.
Proof.
  intros l e L E; unfold strip.
  destruct l as [|x l].
  - cbn [app]; replace (drop_while cr_lf e) with (@nil ascii); [reflexivity|].
    symmetry; rewrite <- (app_nil_r e); apply drop_all; [exact E|exact I].
  - assert (LX : head_not cr_lf ((x :: l) ++ e)) by (inversion L; cbn; assumption).
    rewrite (drop_none _ LX).
    rewrite rev_app_distr, drop_all.
    + apply rev_involutive.
    + rewrite forallb_forall in E |- *; intros y Y; apply E, in_rev, Y.
    + assert (LR : Forall (fun x => cr_lf x = false) (rev (x :: l))) by (apply Forall_rev; exact L).
      destruct (rev (x :: l)); [exact I|inversion LR; cbn; assumption].
Qed.

(** A line end consists of carriage returns and line feeds. *)
Definition end_char (c : ascii) : Prop := c = "013"%char \/ c = "010"%char.
Definition plain_line (l : chars) : Prop := Forall (fun c => ~ end_char c) l.
Definition line_end (e : chars) : Prop := e <> [] /\ Forall end_char e.
Lemma end_char_spec c : cr_lf c = true <-> end_char c.
Proof. unfold cr_lf, end_char. rewrite orb_true_iff, !Ascii.eqb_eq. reflexivity. Qed.
Lemma plain_spec l : plain_line l -> Forall (fun x => cr_lf x = false) l.
Proof. apply Forall_impl. intros c H. apply not_true_iff_false. now rewrite end_char_spec. Qed.
Lemma end_spec e : line_end e -> forallb cr_lf e = true.
Proof. intros [_ H]. apply forallb_forall. intros c C. apply end_char_spec. rewrite Forall_forall in H. now apply H. Qed.
(** Files that differ only in their line ends give the same frames, and with keep_unknowns the lines are yielded without their ends, all of them unless an exception is raised. *)
Definition line_of (x : chars * chars * chars) : chars := fst (fst x).
Definition with_first (x : chars * chars * chars) : chars := fst (fst x) ++ snd (fst x).
Definition with_second (x : chars * chars * chars) : chars := fst (fst x) ++ snd x.
Theorem C43_line_ends : forall st keep (ls : list (chars * chars * chars)),
  Forall (fun x => plain_line (line_of x) /\ line_end (snd (fst x)) /\ line_end (snd x)) ls ->
  iterlines st keep (map with_first ls) = iterlines st keep (map with_second ls) /\
  (exists n, map fst (fst (iterlines st true (map with_first ls))) = firstn n (map line_of ls) /\
     (snd (iterlines st true (map with_first ls)) = None -> n = List.length ls)).
Proof.
  intros st keep ls H; revert st; induction H as [|[[l e] e'] ls (P & E & E') H IH]; intros st; [split; [reflexivity|exists 0%nat; auto]|]; cbn [line_of fst snd] in P, E, E'.
  assert (S1 := strip_ends l e (plain_spec l P) (end_spec e E)). assert (S2 := strip_ends l e' (plain_spec l P) (end_spec e' E')).
  assert (N : forall x, line_end x -> exists c r, l ++ x = c :: r).
  { intros x [X _]. destruct (l ++ x) as [|c r] eqn:Q; [|eauto]. apply app_eq_nil in Q. now destruct Q. }
  destruct (N e E) as (c & r & Q), (N e' E') as (c' & r' & Q'). cbn [map]. unfold with_first at 1 3 5, with_second at 1, line_of at 1; cbn [fst snd]. rewrite Q in S1 |- *. rewrite Q' in S2 |- *. cbn [iterlines]. rewrite S1, S2.
  destruct (parse st l) as [st' [f|x]].
  - destruct (IH st') as (I1 & n & I2 & I3). rewrite I1. split; [reflexivity|]. exists (S n). cbn [firstn fst map].
    destruct (iterlines st' true (map with_first ls)) as [ys ex]. cbn [fst snd] in I2, I3.
    destruct f as [d|]; cbn [fst snd map List.length]; rewrite I2; split; try reflexivity; intros X; now rewrite I3.
  - split; [reflexivity|]. exists 0%nat. cbn. split; [reflexivity|discriminate].
Qed.

(** C42 for files: the frames of a file of candump lines are read back in order, error frames left out. *)
Definition lf : chars := ["010"%char].
Definition candump_line (e : chars * columns * cpayload) : chars := let '(w, c, p) := e in w ++ columns_text c (cp_text p).
Theorem C42_candump_file : forall es : list (chars * columns * cpayload),
  Forall (fun e => let '(w, c, p) := e in forallb is_space w = true /\ columns_ok c /\ cp_ok p /\ plain_line (candump_line e)) es ->
  iterlines None false (map (fun e => candump_line e ++ lf) es) =
  (flat_map (fun e => let '(w, c, p) := e in match cp_frame c p TMissing [] with Some d => [(candump_line e, Some d)] | None => [] end) es, None).
Proof.
  intros es H.
  assert (G : forall st, st = None \/ st = Some PDefault ->
    iterlines st false (map (fun e => candump_line e ++ lf) es) =
    (flat_map (fun e => let '(w, c, p) := e in match cp_frame c p TMissing [] with Some d => [(candump_line e, Some d)] | None => [] end) es, None)); [|apply G; auto].
  induction H as [|[[w c] p] es (W & C & P & L) H IH]; intros st ST; [reflexivity|].
  cbn [map flat_map].
  assert (S : strip (candump_line (w, c, p) ++ lf) = candump_line (w, c, p)) by (apply strip_ends; [apply plain_spec; exact L|reflexivity]).
  assert (PR : parse st (candump_line (w, c, p)) = (Some PDefault, Ok (cp_frame c p TMissing []))).
  { pose proof (C42_candump w c p W C P) as PN; unfold candump_line.
    destruct ST as [ -> | -> ]; [exact PN|].
    unfold parse in PN |- *; injection PN as -> PN; rewrite PN; reflexivity. }
  destruct (candump_line (w, c, p) ++ lf) as [|x l] eqn:EL.
  - exfalso; apply app_eq_nil in EL; destruct EL; discriminate.
  - cbn [iterlines]; rewrite S, PR, IH by auto.
    destruct (cp_frame c p TMissing []); reflexivity.
Qed.

(** ** Examples *)
Definition ex_columns : columns := mkColumns (txt "vcan0") (txt "  ") false 0x1F0 (txt "   ") (txt "3") (txt "  ").
Definition ex_payload : cpayload := CData [(0, 1%nat); (27, 1%nat); (193, 3%nat)] (txt "'..A'").
Example ex_columns_ok : columns_ok ex_columns /\ cp_ok ex_payload /\
  txt " " ++ columns_text ex_columns (cp_text ex_payload) = txt " vcan0  1F0   [3]  00 1B C1   '..A'".
Proof.
  split; [|split].
  - unfold columns_ok, run, blank; cbn; repeat split; discriminate || lia.
  - split; [repeat constructor; cbn; lia|right; eexists; split; reflexivity].
  - vm_compute; reflexivity.
Qed.
Definition ex_date : date := mkDate 2020 2 29 12 4 45 (txt "485261").
Example ex_date_ok : date_valid ex_date /\ date_text ex_date = txt "2020-02-29 12:04:45.485261".
Proof. split; [unfold date_valid, run; cbn; repeat split; discriminate || lia|vm_compute; reflexivity]. Qed.
Example ex_log : lp_ok (LData (Some "1"%char) [106; 15] (txt " R")) /\ lp_text (LData (Some "1"%char) [106; 15] (txt " R")) = txt "#16A0F R".
Proof.
  split; [split; [reflexivity|split; [repeat constructor; cbn; lia|right]]|vm_compute; reflexivity].
  exists (txt " "), "R"%char; split; [split; [discriminate|reflexivity]|auto].
Qed.
Definition ex_pcan : pcan :=
  mkPcan (txt "  ") (txt "12") (txt "  ") (txt "6357") (txt "213") (txt " ") "1" (txt "  ") (txt "Rx") (txt " ") false 0x401 (txt "  ") (txt "Rx") (txt " ") (txt " ")
    (txt "2") (txt "  ") (Bytes [(18, 1%nat); (171, 0%nat)]).
Example ex_pcan_ok : pcan_ok ex_pcan /\ ~ pcan_skipped ex_pcan /\ v13_text ex_pcan = txt "  12)  6357.213 1  Rx 0401  - 2  12 AB" /\
  v21_text ex_pcan = txt "  12  6357.213 Rx  1 0401  Rx - 2  12 AB".
Proof.
  split; [|split; [|split; vm_compute; reflexivity]].
  - unfold pcan_ok, run, blank; cbn; repeat split; try discriminate; try lia; repeat constructor; cbn; lia.
  - intros [H|H]; vm_compute in H; discriminate H.
Qed.
Example ex_sticky :
  unknown_line (strip (txt "hello")) /\ first_format PDefault (strip (txt "vcan0 123 [0]")) /\
  re_match (pattern_re PDefault) (strip (txt "(1.0) vcan0 123#00")) = None.
Proof.
  split; [intros []; vm_compute; reflexivity|split; [split; [vm_compute; discriminate|cbn; lia]|vm_compute; reflexivity]].
Qed.

Example ex_line_ends : Forall (fun x => plain_line (line_of x) /\ line_end (snd (fst x)) /\ line_end (snd x))
  [(txt "hello", ["013"%char; "010"%char], lf); (txt "vcan0 123 [0]", lf, ["013"%char; "010"%char])].
Proof.
  unfold plain_line, line_end, end_char, line_of, lf. repeat constructor; cbn; try discriminate; auto; intros [H|H]; discriminate H.
Qed.

(** ** Refutations: lines that make the reader raise, or read a damaged line *)
(** An odd number of digits in the data of a PCAN line raises ValueError, also in the middle of a file. *)
Theorem C42_odd_data_refuted :
  snd (parse None (txt "1) 1841 0001 2 00 1")) = Err ValueError /\
  snd (iterlines None false [txt "1) 1841 0001 1 00"; txt "2) 1842 0001 2 00 1"; txt "3) 1843 0001 1 00"]) = Some ValueError.
Proof. split; vm_compute; reflexivity. Qed.
(** A timestamp with two points raises ValueError. *)
Theorem C42_timestamp_refuted : snd (parse None (txt "(1.2.3) vcan0 123 [1] 00")) = Err ValueError.
Proof. vm_compute; reflexivity. Qed.
(** A version 2.0 line of a frame without data and without trailing space raises TypeError. *)
Theorem C42_v20_no_data_refuted : snd (parse None (txt "1 1059.900 DT 0300 Rx 0")) = Err TypeError.
Proof. vm_compute; reflexivity. Qed.
(** The length column is not compared with the data: a truncated line is read as a shorter frame. *)
Theorem C42_truncated_refuted :
  exists f, snd (parse None (txt "vcan0 123 [8] 00 11 2")) = Ok (Some f) /\ df_data f = [0; 17].
Proof. eexists; split; vm_compute; reflexivity. Qed.
(** The extended flag is the number of digits: candump prints error frames and 29 bit ids with eight digits,
    and a standard id padded to four digits is read as extended. *)
Theorem C42_padded_id_refuted :
  exists f, snd (parse None (txt "vcan0 0123 [0]")) = Ok (Some f) /\ df_id f = 291 /\ df_ext f = true.
Proof. eexists; split; [vm_compute; reflexivity|split; reflexivity]. Qed.
