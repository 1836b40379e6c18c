(** C83: what the plot command reads from its input. *)
From Coq Require Import Ascii.
From Verif Require Import Base CSource Regex RegexLemmas Logreader LogSpec LogProofs PlotRead.
Local Open Scope string_scope.
Local Open Scope Z_scope.
Local Open Scope list_scope.

(** ** Printed lines *)
(** What candump prints before the columns: nothing or a time in parentheses *)
Record printed := mkPrinted { pr_indent : chars; pr_time : option (chars * chars); pr_columns : columns; pr_data : list (Z * nat); pr_tail : chars }.
(** What 'cantools decode --single-line' appends: two colons and anything *)
Definition decoded_tail (t : chars) : Prop := t = [] \/ exists u, t = txt "::" ++ u /\ forallb dot u = true.
Definition in_parentheses (c : ascii) : bool := dot c && negb (Ascii.eqb c ")").
Definition printed_ok (p : printed) : Prop :=
  forallb is_space (pr_indent p) = true /\ columns_ok (pr_columns p) /\ data_ok (pr_data p) /\ decoded_tail (pr_tail p) /\
  match pr_time p with
  | Some (t, w) => forallb in_parentheses t = true /\ forallb is_space w = true
  | None => head_not (Ascii.eqb "(") (co_channel (pr_columns p))
  end.
Definition printed_text (p : printed) : chars :=
  pr_indent p ++ (match pr_time p with Some (t, w) => "("%char :: t ++ ")"%char :: w | None => [] end) ++
  columns_text (pr_columns p) (data_text (pr_data p) ++ pr_tail p).

Lemma end_match c t : decoded_tail t -> rmatch (seqs plot_end) c t fin = Some c.
Proof.
  intros [->|(u & -> & U)].
  - reflexivity.
  - unfold plot_end. cbn [seqs]. change (match rmatch (Seq sp0 (Seq (Lit (txt "::")) (Star true (Chr dot)))) c (txt "::" ++ u) (fun c' s' => rmatch Eol c' s' fin) with Some y => Some y | None => rmatch Eol c (txt "::" ++ u) fin end = Some c).
    assert (E : rmatch (Seq sp0 (Seq (Lit (txt "::")) (Star true (Chr dot)))) c (txt "::" ++ u) (fun c' s' => rmatch Eol c' s' fin) = Some c).
    { unfold sp0. etransitivity; [apply (seq_star_exact true is_space (Seq (Lit (txt "::")) (Star true (Chr dot))) c [] (txt "::" ++ u)); [vm_compute; reflexivity|reflexivity|reflexivity]|]. rewrite seq_lit. rewrite <- (app_nil_r u) at 1. rewrite (cstar_greedy dot c u []); [reflexivity|discriminate|exact U|exact I]. }
    rewrite E. reflexivity.
Qed.
Definition data_end : list re := Group "data" (Star true (Chr hex_or_blank)) :: plot_end.
Lemma hexdigit_blank n : 0 <= n < 16 -> hex_or_blank (hexdigit n) = true.
Proof. intros H. unfold hex_or_blank. now rewrite hexdigit_upper. Qed.
Lemma data_blank l : forallb hex_or_blank (data_text l) = true.
Proof.
  induction l as [|[b n] l IH]; [reflexivity|]. rewrite data_text_cons, hex_fixed2, !forallb_app, IH. cbn [forallb]. rewrite !hexdigit_blank by (apply Z.mod_pos_bound; lia). cbn [andb]. rewrite andb_true_r. induction n as [|n IHn]; [reflexivity|exact IHn].
Qed.
Lemma data_end_match c l t : decoded_tail t -> rmatch (seqs data_end) c (data_text l ++ t) fin = Some (("data"%string, data_text l) :: c).
Proof.
  intros T. change (rmatch (Star true (Chr hex_or_blank)) c (data_text l ++ t) (fun c' s' => rmatch (seqs plot_end) (("data"%string, consumed (data_text l ++ t) s') :: c') s' fin) = Some (("data"%string, data_text l) :: c)).
  rewrite cstar_greedy.
  - rewrite consumed_app. now apply end_match.
  - rewrite consumed_app, end_match by exact T. discriminate.
  - apply data_blank.
  - destruct T as [->|(u & -> & _)]; [exact I|reflexivity].
Qed.
Lemma columns_match c0 c payload c' : columns_ok c0 -> head_not is_space payload ->
  rmatch (seqs data_end) (("frameid"%string, candump_id (co_ext c0) (co_id c0)) :: c) payload fin = Some c' ->
  rmatch (seqs plot_columns) c (columns_text c0 payload) fin = Some c'.
Proof.
  destruct c0 as [chn w1 ext id w2 len w3]; unfold columns_ok, columns_text; cbn [co_channel co_w1 co_ext co_id co_w2 co_len co_w3].
  intros (CH & W1 & ID & W2 & LEN & W3) P E.
  assert (IDR : run hex_upper (candump_id ext id)).
  { split; [|apply hex_fixed_upper]. intros X; apply (f_equal (@List.length ascii)) in X; unfold candump_id in X; rewrite hex_fixed_length in X; destruct ext; discriminate. }
  change (rmatch (Seq (Plus true (Chr non_space)) (seqs (sp1 :: Group "frameid" (Plus true (Chr hex_upper)) :: sp0 :: ch "[" :: dig1 :: ch "]" :: sp0 :: data_end))) c
            (chn ++ w1 ++ candump_id ext id ++ w2 ++ "["%char :: len ++ "]"%char :: w3 ++ payload) fin = Some c').
  rewrite seq_plus_exact; [|vm_compute; reflexivity|apply CH|apply CH|apply blank_head; [exact W1|exact space_non]].
  change (rmatch (Seq sp1 (seqs (Group "frameid" (Plus true (Chr hex_upper)) :: sp0 :: ch "[" :: dig1 :: ch "]" :: sp0 :: data_end))) c
            (w1 ++ candump_id ext id ++ w2 ++ "["%char :: len ++ "]"%char :: w3 ++ payload) fin = Some c').
  unfold sp1; rewrite seq_plus_exact; [|vm_compute; reflexivity|apply W1|apply W1|eapply run_head; [exact IDR|exact hex_space]].
  change (rmatch (Seq (Group "frameid" (Plus true (Chr hex_upper))) (seqs (sp0 :: ch "[" :: dig1 :: ch "]" :: sp0 :: data_end))) c
            (candump_id ext id ++ w2 ++ "["%char :: len ++ "]"%char :: w3 ++ payload) fin = Some c').
  rewrite seq_gplus_exact; [|vm_compute; reflexivity|apply IDR|apply IDR|apply blank_head; [exact W2|exact space_hex]].
  change (rmatch (Seq sp0 (seqs (ch "[" :: dig1 :: ch "]" :: sp0 :: data_end))) (("frameid"%string, candump_id ext id) :: c)
            (w2 ++ "["%char :: len ++ "]"%char :: w3 ++ payload) fin = Some c').
  unfold sp0 at 1; rewrite seq_star_exact; [|vm_compute; reflexivity|apply W2|reflexivity].
  change (rmatch (Seq dig1 (seqs (ch "]" :: sp0 :: data_end))) (("frameid"%string, candump_id ext id) :: c) (len ++ "]"%char :: w3 ++ payload) fin = Some c').
  unfold dig1; rewrite seq_plus_exact; [|vm_compute; reflexivity|apply LEN|apply LEN|reflexivity].
  change (rmatch (Star true (Chr is_space)) (("frameid"%string, candump_id ext id) :: c) (w3 ++ payload) (fun c1 s1 => rmatch (seqs data_end) c1 s1 fin) = Some c').
  rewrite cstar_greedy; [exact E|rewrite E; discriminate|exact W3|exact P].
Qed.
Lemma lazy_until (p q : ascii -> bool) c w rest (k : caps -> chars -> option caps) :
  (forall x s, q x = true -> k c (x :: s) = None) -> forallb p w = true -> forallb q w = true -> k c rest <> None ->
  rmatch (Star false (Chr p)) c (w ++ rest) k = k c rest.
Proof.
  intros R P Q N. induction w as [|x w IH]; cbn [List.app].
  - destruct rest as [|x rest]; [reflexivity|]. rewrite cstar_cons. destruct (k c (x :: rest)); [reflexivity|contradiction].
  - cbn [forallb] in P, Q. apply andb_prop in P, Q. destruct P as [P1 P2], Q as [Q1 Q2]. rewrite cstar_cons, R, P1 by exact Q1. now apply IH.
Qed.
Definition printed_caps (p : printed) : caps :=
  ("data"%string, data_text (pr_data p)) :: ("frameid"%string, candump_id (co_ext (pr_columns p)) (co_id (pr_columns p))) :: match pr_time p with Some (t, _) => [("time"%string, t)] | None => [] end.
Lemma printed_match p : printed_ok p -> re_match plot_candump (printed_text p) = Some (printed_caps p).
Proof.
  destruct p as [w0 time cols data tail]. unfold printed_ok, printed_text, printed_caps. cbn [pr_indent pr_time pr_columns pr_data pr_tail]. intros (W0 & C & D & T & TM).
  assert (HP : head_not is_space (data_text data ++ tail)).
  { destruct data as [|[b n] data]; [destruct T as [->|(u & -> & _)]; [exact I|reflexivity]|]. rewrite data_text_cons, hex_fixed2. cbn. apply hex_space, hexdigit_upper, Z.mod_pos_bound. lia. }
  assert (CM : forall c, rmatch (seqs plot_columns) c (columns_text cols (data_text data ++ tail)) fin = Some (("data"%string, data_text data) :: ("frameid"%string, candump_id (co_ext cols) (co_id cols)) :: c)).
  { intros c. apply columns_match; [exact C|exact HP|]. now apply data_end_match. }
  assert (HC : head_not is_space (columns_text cols (data_text data ++ tail))) by (apply (run_head non_space); [apply C|exact non_space_space]).
  assert (SC : forall c w, forallb is_space w = true -> rmatch (Seq sp0 (seqs plot_columns)) c (w ++ columns_text cols (data_text data ++ tail)) fin = Some (("data"%string, data_text data) :: ("frameid"%string, candump_id (co_ext cols) (co_id cols)) :: c)).
  { intros c w W. change (rmatch (Star true (Chr is_space)) c (w ++ columns_text cols (data_text data ++ tail)) (fun c' s' => rmatch (seqs plot_columns) c' s' fin) = Some (("data"%string, data_text data) :: ("frameid"%string, candump_id (co_ext cols) (co_id cols)) :: c)).
    rewrite cstar_greedy; [apply CM|rewrite CM; discriminate|exact W|exact HC]. }
  unfold re_match. fold fin.
  set (rest := (match time with Some (t, w) => "("%char :: t ++ ")"%char :: w | None => [] end) ++ columns_text cols (data_text data ++ tail)).
  set (result := ("data"%string, data_text data) :: ("frameid"%string, candump_id (co_ext cols) (co_id cols)) :: match time with Some (t, _) => [("time"%string, t)] | None => [] end).
  assert (B : rmatch (Seq plot_time (Seq sp0 (seqs plot_columns))) [] rest fin = Some result).
  { change (match rmatch (Seq (ch "(") (Seq (Group "time" any0l) (ch ")"))) [] rest (fun c' s' => rmatch (Seq sp0 (seqs plot_columns)) c' s' fin) with Some y => Some y | None => rmatch (Seq sp0 (seqs plot_columns)) [] rest fin end = Some result).
    destruct time as [[t w]|]; subst rest result; cbn [List.app].
    - destruct TM as [TT W].
      assert (E : rmatch (Seq (ch "(") (Seq (Group "time" any0l) (ch ")"))) [] ("("%char :: (t ++ ")"%char :: w) ++ columns_text cols (data_text data ++ tail)) (fun c' s' => rmatch (Seq sp0 (seqs plot_columns)) c' s' fin) = Some [("data"%string, data_text data); ("frameid"%string, candump_id (co_ext cols) (co_id cols)); ("time"%string, t)]); [|now rewrite E].
      rewrite <- app_assoc. cbn [List.app].
      change (rmatch (Star false (Chr dot)) [] (t ++ ")"%char :: w ++ columns_text cols (data_text data ++ tail)) (fun c' s' => rmatch (ch ")") (("time"%string, consumed (t ++ ")"%char :: w ++ columns_text cols (data_text data ++ tail)) s') :: c') s' (fun c' s' => rmatch (Seq sp0 (seqs plot_columns)) c' s' fin)) = Some [("data"%string, data_text data); ("frameid"%string, candump_id (co_ext cols) (co_id cols)); ("time"%string, t)]).
      assert (K : rmatch (ch ")") (("time"%string, consumed (t ++ ")"%char :: w ++ columns_text cols (data_text data ++ tail)) (")"%char :: w ++ columns_text cols (data_text data ++ tail))) :: []) (")"%char :: w ++ columns_text cols (data_text data ++ tail)) (fun c' s' => rmatch (Seq sp0 (seqs plot_columns)) c' s' fin) = Some [("data"%string, data_text data); ("frameid"%string, candump_id (co_ext cols) (co_id cols)); ("time"%string, t)]).
      { rewrite consumed_app. change (rmatch (Seq sp0 (seqs plot_columns)) [("time"%string, t)] (w ++ columns_text cols (data_text data ++ tail)) fin = Some [("data"%string, data_text data); ("frameid"%string, candump_id (co_ext cols) (co_id cols)); ("time"%string, t)]). apply SC. exact W. }
      rewrite (lazy_until dot (fun x => negb (Ascii.eqb x ")"))).
      + exact K.
      + intros x s X. cbn [rmatch ch is_char]. unfold is_char. rewrite Ascii.eqb_sym. apply negb_true_iff in X. now rewrite X.
      + clear - TT. induction t as [|x t IH]; [reflexivity|]. cbn [forallb] in *. apply andb_prop in TT. destruct TT as [A B]. apply andb_prop in A. destruct A as [A _]. rewrite A. now apply IH.
      + clear - TT. induction t as [|x t IH]; [reflexivity|]. cbn [forallb] in *. apply andb_prop in TT. destruct TT as [A B]. apply andb_prop in A. destruct A as [_ A]. rewrite A. now apply IH.
      + rewrite K. discriminate.
    - assert (E : rmatch (Seq (ch "(") (Seq (Group "time" any0l) (ch ")"))) [] (columns_text cols (data_text data ++ tail)) (fun c' s' => rmatch (Seq sp0 (seqs plot_columns)) c' s' fin) = None).
      { destruct C as (CH & _). unfold columns_text. destruct (co_channel cols) as [|x u]; [destruct CH; contradiction|]. cbn [List.app]. cbn [head_not] in TM. change (rmatch (Seq (ch "(") (Seq (Group "time" any0l) (ch ")"))) [] (x :: ?s) ?k) with (if is_char "(" x then rmatch (Seq (Group "time" any0l) (ch ")")) [] s k else None). unfold is_char. now rewrite TM. }
      rewrite E. apply (SC [] []). reflexivity. }
  change (rmatch (Star true (Chr is_space)) [] (w0 ++ rest) (fun c' s' => rmatch (Seq plot_time (Seq sp0 (seqs plot_columns))) c' s' fin) = Some result).
  rewrite cstar_greedy; [exact B|rewrite B; discriminate|exact W0|]. subst rest. destruct time as [[t w]|]; [reflexivity|exact HC].
Qed.
Lemma id_of ext id : candump_id_ok ext id -> frame_number (candump_id ext id) = Ok id.
Proof.
  intros H. unfold frame_number, candump_id in *. rewrite hex_fixed_length. destruct ext; cbn [Nat.leb]; rewrite hex_int_fixed; try reflexivity; unfold candump_id_ok in H; exact H.
Qed.
(** What candump prints for a frame is read as that frame and its time. *)
Theorem C83_candump p : printed_ok p ->
  exists c, re_match plot_candump (printed_text p) = Some c /\ mo_unpack c = Ok (option_map fst (pr_time p), co_id (pr_columns p), map fst (pr_data p)).
Proof.
  intros H. exists (printed_caps p). split; [now apply printed_match|]. destruct H as (_ & C & D & _). unfold mo_unpack, printed_caps. cbn [grp group sget]. 
  change (grp (("data"%string, data_text (pr_data p)) :: ("frameid"%string, candump_id (co_ext (pr_columns p)) (co_id (pr_columns p))) :: ?r) "frameid") with (candump_id (co_ext (pr_columns p)) (co_id (pr_columns p))).
  change (grp (("data"%string, data_text (pr_data p)) :: ?r) "data") with (data_text (pr_data p)). rewrite id_of by apply C. cbn [bind]. rewrite unhexlify_data by exact D. cbn [bind]. destruct (pr_time p) as [[t w]|]; reflexivity.
Qed.

(** ** Lines of candump -l *)
Record logged := mkLogged { lg_seconds : chars; lg_fraction : chars; lg_w1 : chars; lg_channel : chars; lg_w2 : chars; lg_ext : bool; lg_id : Z; lg_data : list Z; lg_direction : option (chars * ascii) }.
Definition logged_ok (p : logged) : Prop :=
  run is_digit (lg_seconds p) /\ run is_digit (lg_fraction p) /\ blank (lg_w1 p) /\ run non_space (lg_channel p) /\ ~ In "["%char (lg_channel p) /\ blank (lg_w2 p) /\
  candump_id_ok (lg_ext p) (lg_id p) /\ Forall byte_ok (lg_data p) /\
  match lg_direction p with Some (w, c) => blank w /\ (c = "R"%char \/ c = "T"%char) | None => True end.
Definition logged_text (p : logged) : chars :=
  "("%char :: seconds_text (lg_seconds p) (lg_fraction p) ++ ")"%char :: lg_w1 p ++ lg_channel p ++ lg_w2 p ++ candump_id (lg_ext p) (lg_id p) ++ "#"%char ::
  flat_map (hex_fixed 2) (lg_data p) ++ match lg_direction p with Some (w, c) => w ++ [c] | None => [] end.
(** A match continues behind what was matched. *)
Lemma rsuffix r : forall (c : caps) s (k : caps -> chars -> option caps) y, rmatch r c s k = Some y -> exists c' w s', s = w ++ s' /\ k c' s' = Some y.
Proof.
  induction r as [|p|a IHa b IHb|a IHa b IHb|g r IHr|n r IHr|]; intros c s k y H; cbn [rmatch] in H.
  - now exists c, [], s.
  - destruct s as [|x s]; [discriminate|]. destruct (p x); [|discriminate]. now exists c, [x], s.
  - apply IHa in H. destruct H as (c1 & w1 & s1 & -> & H). apply IHb in H. destruct H as (c2 & w2 & s2 & -> & H). exists c2, (w1 ++ w2), s2. split; [apply app_assoc|exact H].
  - destruct (rmatch a c s k) eqn:E; [injection H as <-; now apply IHa in E|now apply IHb in H].
  - revert H. generalize (List.length s) as fuel. intros fuel. revert c s. induction fuel as [|fuel IHf]; intros c s H; [now exists c, [], s|].
    destruct g.
    + match type of H with match ?t with _ => _ end = _ => destruct t as [z|] eqn:E end; [|now exists c, [], s]. injection H as <-. apply IHr in E. destruct E as (c1 & w1 & s1 & -> & E). destruct (Nat.ltb _ _); [|discriminate]. apply IHf in E. destruct E as (c2 & w2 & s2 & -> & E). exists c2, (w1 ++ w2), s2. split; [apply app_assoc|exact E].
    + destruct (k c s) as [z|] eqn:E; [injection H as <-; now exists c, [], s|]. apply IHr in H. destruct H as (c1 & w1 & s1 & -> & H). destruct (Nat.ltb _ _); [|discriminate]. apply IHf in H. destruct H as (c2 & w2 & s2 & -> & H). exists c2, (w1 ++ w2), s2. split; [apply app_assoc|exact H].
  - apply IHr in H. destruct H as (c1 & w1 & s1 & -> & H). now exists ((n, consumed (w1 ++ s1) s1) :: c1), w1, s1.
  - exists c, [], s. split; [reflexivity|]. destruct s as [|x [|]]; [exact H| |discriminate]. now destruct (Ascii.eqb x newline).
Qed.
Lemma chr_head a r (c : caps) s (k : caps -> chars -> option caps) y : rmatch (Seq (ch a) r) c s k = Some y -> In a s.
Proof.
  destruct s as [|x s]; [discriminate|]. intros H. change (rmatch (Seq (ch a) r) c (x :: s) k) with (if is_char a x then rmatch r c s k else None) in H. unfold is_char in H. destruct (Ascii.eqb_spec a x) as [->|]; [now left|discriminate].
Qed.
Lemma candump_bracket l c : re_match plot_candump l = Some c -> In "["%char l.
Proof.
  unfold re_match. intros H.
  assert (S : forall a b (c0 : caps) s (y : caps), rmatch (Seq a b) c0 s (fun c _ => Some c) = Some y -> exists c' w s', s = w ++ s' /\ rmatch b c' s' (fun c _ => Some c) = Some y) by (intros a b c0 s y E; cbn [rmatch] in E; apply rsuffix in E; exact E).
  change plot_candump with (Seq sp0 (Seq plot_time (Seq sp0 (Seq (Plus true (Chr non_space)) (Seq sp1 (Seq (Group "frameid" (Plus true (Chr hex_upper))) (Seq sp0 (Seq (ch "[") (seqs (dig1 :: ch "]" :: sp0 :: data_end)))))))))) in H.
  do 7 (apply S in H; destruct H as (? & ? & ? & -> & H); apply in_or_app; right). clear S.
  now apply chr_head in H.
Qed.
Definition not_bracket (c : ascii) : bool := negb (Ascii.eqb c "[").
Lemma class_bracket (p : ascii -> bool) w : p "["%char = false -> forallb p w = true -> forallb not_bracket w = true.
Proof. intros P. induction w as [|x w IH]; [reflexivity|]. cbn [forallb]. intros H. apply andb_prop in H. destruct H as [A B]. rewrite IH by exact B. unfold not_bracket. destruct (Ascii.eqb_spec x "[") as [->|]; [congruence|reflexivity]. Qed.
Lemma hex_bytes_upper l : forallb hex_upper (flat_map (hex_fixed 2) l) = true.
Proof. induction l as [|b l IH]; [reflexivity|]. cbn [flat_map]. now rewrite forallb_app, hex_fixed_upper, IH. Qed.
Lemma logged_bracket p : logged_ok p -> forallb not_bracket (logged_text p) = true.
Proof.
  destruct p as [a b w1 chn w2 ext id data dir]. unfold logged_ok, logged_text, seconds_text. cbn [lg_seconds lg_fraction lg_w1 lg_channel lg_w2 lg_ext lg_id lg_data lg_direction]. intros (A & B & W1 & CH & NB & W2 & ID & D & DIR).
  assert (C : forallb not_bracket chn = true). { clear - NB. induction chn as [|x l IH]; [reflexivity|]. cbn [forallb]. rewrite IH by (intros I; apply NB; now right). unfold not_bracket. destruct (Ascii.eqb_spec x "[") as [->|]; [exfalso; apply NB; now left|reflexivity]. }
  repeat (rewrite forallb_app || cbn [forallb]). rewrite (class_bracket is_digit a), (class_bracket is_digit b), (class_bracket is_space w1), C, (class_bracket is_space w2), (class_bracket hex_upper (candump_id ext id)), (class_bracket hex_upper (flat_map (hex_fixed 2) data)); try reflexivity; [|apply hex_bytes_upper|apply hex_fixed_upper|apply W2|apply W1|apply B|apply A].
  destruct dir as [[w c]|]; [|reflexivity]. destruct DIR as [W C1]. rewrite forallb_app, (class_bracket is_space w) by (reflexivity || apply W). destruct C1 as [->| ->]; reflexivity.
Qed.
Lemma unhexlify_bytes l : Forall byte_ok l -> unhexlify (filter (fun x => negb (Ascii.eqb x " ")) (flat_map (hex_fixed 2) l)) = Ok l.
Proof.
  intros H. pose proof (unhexlify_data (map (fun b => (b, O)) l)) as E. assert (X : data_text (map (fun b => (b, O)) l) = flat_map (hex_fixed 2) l). { clear. induction l as [|b l IH]; [reflexivity|]. cbn [map]. rewrite data_text_cons. cbn [spaces repeat List.app flat_map]. now rewrite IH. }
  rewrite X in E. rewrite E; [|apply Forall_map; exact H]. rewrite map_map. cbn [fst]. now rewrite map_id.
Qed.
Definition logged_caps (p : logged) : caps :=
  [("data"%string, flat_map (hex_fixed 2) (lg_data p)); ("frameid"%string, candump_id (lg_ext p) (lg_id p)); ("time"%string, seconds_text (lg_seconds p) (lg_fraction p))].
Lemma logged_match p : logged_ok p -> re_match plot_log (logged_text p) = Some (logged_caps p).
Proof.
  destruct p as [a b w1 chn w2 ext id data dir]. unfold logged_ok, logged_text, logged_caps. cbn [lg_seconds lg_fraction lg_w1 lg_channel lg_w2 lg_ext lg_id lg_data lg_direction]. intros (A & B & W1 & CH & NB & W2 & ID & D & DIR).
  assert (IDR : run hex_upper (candump_id ext id)).
  { split; [|apply hex_fixed_upper]. intros X; apply (f_equal (@List.length ascii)) in X; unfold candump_id in X; rewrite hex_fixed_length in X; destruct ext; discriminate. }
  set (dt := match dir with Some (w, c) => w ++ [c] | None => [] end).
  set (tl := w1 ++ chn ++ w2 ++ candump_id ext id ++ "#"%char :: flat_map (hex_fixed 2) data ++ dt).
  unfold re_match. fold fin.
  assert (E1 : forall c, rmatch (seqs [Opt (Seq sp1 (Chr (fun c => Ascii.eqb c "R" || Ascii.eqb c "T"))); Eol]) c dt fin = Some c).
  { intros c. unfold dt. destruct dir as [[w x]|]; [|reflexivity]. destruct DIR as [W X].
    change (match rmatch (Seq sp1 (Chr (fun c => Ascii.eqb c "R" || Ascii.eqb c "T"))) c (w ++ [x]) (fun c' s' => rmatch Eol c' s' fin) with Some y => Some y | None => rmatch Eol c (w ++ [x]) fin end = Some c).
    unfold sp1. rewrite seq_plus_exact; [|vm_compute; reflexivity|apply W|apply W|destruct X as [->| ->]; reflexivity]. destruct X as [->| ->]; reflexivity. }
  assert (HD : head_not hex_upper dt). { unfold dt. destruct dir as [[w x]|]; [|exact I]. apply blank_head; [apply DIR|exact space_hex]. }
  assert (E2 : forall c, rmatch (seqs plot_log_rest) c (chn ++ w2 ++ candump_id ext id ++ "#"%char :: flat_map (hex_fixed 2) data ++ dt) fin = Some (("data"%string, flat_map (hex_fixed 2) data) :: ("frameid"%string, candump_id ext id) :: c)).
  { intros c. set (r3 := [Opt (Seq sp1 (Chr (fun c => Ascii.eqb c "R" || Ascii.eqb c "T"))); Eol]) in *.
    change (seqs plot_log_rest) with (Seq (Plus true (Chr non_space)) (Seq sp1 (Seq (Group "frameid" (Plus true (Chr hex_upper))) (Seq (ch "#") (Seq (Group "data" (Star true (Chr hex_upper))) (seqs r3)))))).
    rewrite seq_plus_exact; [|vm_compute; reflexivity|apply CH|apply CH|apply blank_head; [exact W2|exact space_non]].
    unfold sp1; rewrite seq_plus_exact; [|vm_compute; reflexivity|apply W2|apply W2|eapply run_head; [exact IDR|exact hex_space]].
    rewrite seq_gplus_exact; [|vm_compute; reflexivity|apply IDR|apply IDR|reflexivity].
    change (rmatch (Star true (Chr hex_upper)) (("frameid"%string, candump_id ext id) :: c) (flat_map (hex_fixed 2) data ++ dt) (fun c' s' => rmatch (seqs r3) (("data"%string, consumed (flat_map (hex_fixed 2) data ++ dt) s') :: c') s' fin) = Some (("data"%string, flat_map (hex_fixed 2) data) :: ("frameid"%string, candump_id ext id) :: c)).
    rewrite cstar_greedy; [rewrite consumed_app; apply E1|rewrite consumed_app, E1; discriminate|apply hex_bytes_upper|exact HD]. }
  unfold seconds_text. 
  change (rmatch (Seq (ch "(") (Seq (Group "time" (Seq dig1 (Seq (ch ".") dig1))) (Seq (ch ")") (Seq sp1 (seqs plot_log_rest))))) [] ("("%char :: (a ++ "."%char :: b) ++ ")"%char :: tl) fin = Some [("data"%string, flat_map (hex_fixed 2) data); ("frameid"%string, candump_id ext id); ("time"%string, a ++ "."%char :: b)]).
  change (rmatch (Seq dig1 (Seq (ch ".") dig1)) [] ((a ++ "."%char :: b) ++ ")"%char :: tl) (fun c' s' => rmatch (Seq (ch ")") (Seq sp1 (seqs plot_log_rest))) (("time"%string, consumed ((a ++ "."%char :: b) ++ ")"%char :: tl) s') :: c') s' fin) = Some [("data"%string, flat_map (hex_fixed 2) data); ("frameid"%string, candump_id ext id); ("time"%string, a ++ "."%char :: b)]).
  set (K := fun (c' : caps) s' => rmatch (Seq (ch ")") (Seq sp1 (seqs plot_log_rest))) (("time"%string, consumed ((a ++ "."%char :: b) ++ ")"%char :: tl) s') :: c') s' fin).
  assert (KE : K [] (")"%char :: tl) = Some [("data"%string, flat_map (hex_fixed 2) data); ("frameid"%string, candump_id ext id); ("time"%string, a ++ "."%char :: b)]).
  { unfold K. rewrite consumed_app. change (rmatch (Seq sp1 (seqs plot_log_rest)) [("time"%string, a ++ "."%char :: b)] tl fin = Some [("data"%string, flat_map (hex_fixed 2) data); ("frameid"%string, candump_id ext id); ("time"%string, a ++ "."%char :: b)]).
    unfold sp1, tl. change (Seq (Plus true (Chr is_space)) (seqs plot_log_rest)) with (Seq (Plus true (Chr is_space)) (seqs plot_log_rest)).
    etransitivity; [apply seq_plus_exact; [vm_compute; reflexivity|apply W1|apply W1|apply (run_head non_space); [exact CH|exact non_space_space]]|]. apply E2. }
  rewrite <- app_assoc. cbn [List.app]. unfold dig1 at 1. rewrite seq_plus_exact; [|vm_compute; reflexivity|apply A|apply A|reflexivity].
  change (rmatch (Plus true (Chr is_digit)) [] (b ++ ")"%char :: tl) K = Some [("data"%string, flat_map (hex_fixed 2) data); ("frameid"%string, candump_id ext id); ("time"%string, a ++ "."%char :: b)]).
  rewrite <- KE. destruct B as [NE B]. destruct b as [|x b]; [contradiction|]. cbn [forallb] in B. apply andb_prop in B. destruct B as [B1 B2]. unfold Plus. cbn [rmatch List.app]. rewrite B1.
  apply (cstar_greedy is_digit [] b (")"%char :: tl) K); [rewrite KE; discriminate|exact B2|reflexivity].
Qed.
(** What candump -l writes for a frame is read as that frame and its time, and is never taken for the other format. *)
Theorem C83_log p : logged_ok p ->
  re_match plot_candump (logged_text p) = None /\
  exists c, re_match plot_log (logged_text p) = Some c /\ mo_unpack c = Ok (Some (seconds_text (lg_seconds p) (lg_fraction p)), lg_id p, lg_data p).
Proof.
  intros H. split.
  - destruct (re_match plot_candump (logged_text p)) as [c|] eqn:E; [|reflexivity]. apply candump_bracket in E. pose proof (logged_bracket p H) as F. rewrite forallb_forall in F. apply F in E. discriminate.
  - exists (logged_caps p). split; [now apply logged_match|]. destruct H as (_ & _ & _ & _ & _ & _ & ID & D & _). unfold mo_unpack.
    change (grp (logged_caps p) "frameid") with (candump_id (lg_ext p) (lg_id p)). change (grp (logged_caps p) "data") with (flat_map (hex_fixed 2) (lg_data p)). rewrite id_of by exact ID. cbn [bind]. rewrite unhexlify_bytes by exact D. reflexivity.
Qed.

(** ** The whole input *)
(** Specification: what a line is, given the format *)
Inductive kind := Empty | Shown | Junk (t : chars) | Read (time : option chars) (id : Z) (data : list Z) | Broken (e : exn).
Definition fits (f : format) (l : chars) : bool := match re_match (format_re f) (strip l) with Some _ => true | None => false end.
(** The format is that of the first line that is in one of them. *)
Definition format_of (lines : list chars) : option format :=
  match find (fun l => fits Candump l || fits Log l) lines with Some l => if fits Candump l then Some Candump else Some Log | None => None end.
Definition kind_of (f : option format) (l : chars) : kind :=
  match strip l with
  | [] => Empty
  | t =>
      match match f with Some f' => re_match (format_re f') t | None => None end with
      | Some c => match mo_unpack c with Ok (time, id, data) => Read time id data | Err e => Broken e end
      | None => match re_match plot_decode t with Some _ => Shown | None => Junk t end
      end
  end.
(** Empty lines and the output of the decode command are not counted. *)
Definition counts (k : kind) : bool := match k with Empty | Shown => false | _ => true end.
Fixpoint numbered (n : Z) (l : list kind) : list (Z * kind) := match l with [] => [] | k :: r => (n, k) :: numbered (if counts k then n + 1 else n) r end.
Section Input.
  Context {D F : Type}.
  Context (date_of : chars -> option D) (float_of : chars -> option F) (large : F -> bool) (from_seconds : F -> result D).
  Context (date_ltb : D -> D -> bool) (float_ltb : F -> F -> bool).
  Context (relative_input : chars -> result F) (absolute_input : chars -> D -> result D) (int_input : chars -> result Z).
  Notation bounds := (option (bound (D := D) (F := F))).
  Notation first_time := (first_time date_of float_of large from_seconds).
  Notation next_time := (next_time date_of float_of from_seconds).
  Notation init_start_stop := (init_start_stop relative_input absolute_input int_input).
  Notation read := (read date_of float_of large from_seconds date_ltb float_ltb relative_input absolute_input int_input).
  Notation too_early := (too_early date_ltb float_ltb).
  Notation too_late := (too_late date_ltb float_ltb).
  (** The first frame *)
  Fixpoint first_frame (l : list (Z * kind)) : option (Z * option chars) :=
    match l with [] => None | (n, Read time _ _) :: _ => Some (n, time) | _ :: r => first_frame r end.
  (** It decides how the times are read and what --start and --stop mean. *)
  Definition settings (line_numbers : bool) (start stop : option chars) (l : list (Z * kind)) : result (mode * bounds * bounds) :=
    if line_numbers then Ok (MLines, option_map BText start, option_map BText stop)
    else match first_frame l with
         | Some (n, time) => let* (m, x) := first_time time n in let* (a, b) := init_start_stop m x start stop in Ok (m, a, b)
         | None => Ok (MLines, None, None)
         end.
  (** What becomes of a line *)
  Inductive verdict := Skip | Tell (e : event (D := D) (F := F)) | Finish.
  Definition fate (cfg : result (mode * bounds * bounds)) (nk : Z * kind) : result verdict :=
    match snd nk with
    | Empty | Shown => Ok Skip
    | Junk t => Ok (Tell (Bad (fst nk) t))
    | Broken e => Err e
    | Read time id data =>
        let* (m, a, b) := cfg in
        let* x := next_time m time (fst nk) in
        let* early := too_early x a in
        if early then Ok Skip else let* late := too_late x b in if late then Ok Finish else Ok (Tell (Frame x id data))
    end.
  Fixpoint outcome (cfg : result (mode * bounds * bounds)) (l : list (Z * kind)) : list event * option exn :=
    match l with
    | [] => ([], None)
    | nk :: r => match fate cfg nk with Err e => ([], Some e) | Ok Finish => ([], None) | Ok Skip => outcome cfg r | Ok (Tell e) => tell e (outcome cfg r) end
    end.
  Lemma first_next time n m x : first_time time n = Ok (m, x) -> next_time m time n = Ok x.
  Proof.
    unfold PlotRead.first_time, PlotRead.next_time. destruct time as [t|]; [|intros [= <- <-]; reflexivity]. destruct (date_of t) as [d|] eqn:DO; [intros [= <- <-]; reflexivity|]. destruct (float_of t) as [f|] eqn:FO; [|intros [= <- <-]; reflexivity]. destruct (large f); [|intros [= <- <-]; reflexivity].
    destruct (from_seconds f) as [d|e] eqn:FS; [intros [= <- <-]; reflexivity|]. destruct e; try discriminate. intros [= <- <-]. reflexivity.
  Qed.
  Lemma format_cons l r : format_of (l :: r) = if fits Candump l then Some Candump else if fits Log l then Some Log else format_of r.
  Proof. unfold format_of. cbn [find]. destruct (fits Candump l) eqn:A; cbn [orb]; [now rewrite A|]. destruct (fits Log l) eqn:B; [now rewrite A|reflexivity]. Qed.
  Lemma empty_fits f l : strip l = [] -> fits f l = false.
  Proof. intros E. unfold fits. rewrite E. destruct f; reflexivity. Qed.
  (** The format that is known so far is that of the whole input, unless no line so far is in a format. *)
  Definition knows (st : option format) (f : option format) (lines : list chars) : Prop := st = f /\ f <> None \/ st = None /\ format_of lines = f.
  Lemma detect_kind f st l r : strip l <> [] -> knows st f (l :: r) ->
    snd (detect_format st (strip l)) = match f with Some f' => re_match (format_re f') (strip l) | None => None end /\ knows (fst (detect_format st (strip l))) f r.
  Proof.
    intros NE [[-> H]|[-> H]].
    - destruct f as [f|]; [|contradiction]. split; [reflexivity|]. left. now split.
    - rewrite format_cons in H. unfold fits in H. cbn [format_re] in H. unfold detect_format. destruct (re_match plot_candump (strip l)) as [c|] eqn:A.
      + subst f. cbn [fst snd format_re]. split; [now rewrite A|left; now split].
      + destruct (re_match plot_log (strip l)) as [c|] eqn:B; subst; cbn [fst snd].
        * split; [cbn [format_re]; now rewrite B|left; now split].
        * split; [|right; now split]. destruct (format_of r) as [[|]|]; cbn [format_re]; [now rewrite A|now rewrite B|reflexivity].
  Qed.
  Lemma knows_empty f st l r : strip l = [] -> knows st f (l :: r) -> knows st f r.
  Proof. intros E [H|[-> H]]; [now left|right]. split; [reflexivity|]. now rewrite format_cons, !empty_fits in H by exact E. Qed.
  Definition set_for (st : state (D := D) (F := F)) (cfg : result (mode * bounds * bounds)) (start stop : option chars) (l : list (Z * kind)) : Prop :=
    (exists m, st_mode st = Some m /\ cfg = Ok (m, st_start st, st_stop st)) \/
    st_mode st = None /\ st_start st = option_map BText start /\ st_stop st = option_map BText stop /\ cfg = settings false start stop l.
  Lemma set_skip st cfg start stop n k r st' : set_for st cfg start stop ((n, k) :: r) -> (forall time id data, k <> Read time id data) -> st_mode st' = st_mode st -> st_start st' = st_start st -> st_stop st' = st_stop st -> set_for st' cfg start stop r.
  Proof.
    intros H K A B C. unfold set_for in *. rewrite A, B, C. destruct H as [H|(M & S & T & ->)]; [now left|right]. repeat split; try assumption. unfold settings. cbn [first_frame]. destruct k; try reflexivity. now destruct (K time id data).
  Qed.
  Lemma text_bound (b : option chars) : text_of (option_map (@BText D F) b) = b.
  Proof. now destruct b. Qed.
  Lemma read_outcome f start stop lines : forall st cfg, knows (st_format st) f lines -> set_for st cfg start stop (numbered (st_line st) (map (kind_of f) lines)) ->
    read st lines = outcome cfg (numbered (st_line st) (map (kind_of f) lines)).
  Proof.
    induction lines as [|l lines IH]; intros st cfg K S; [reflexivity|]. cbn [map numbered outcome] in *. cbn [PlotRead.read].
    set (k := kind_of f l) in *. destruct (strip l) as [|x t] eqn:E.
    - assert (KE : k = Empty) by (unfold k, kind_of; now rewrite E). rewrite KE in *. cbn [fate snd counts] in *. apply IH; [now apply (knows_empty f _ l)|]. apply (set_skip st cfg start stop (st_line st) Empty); try reflexivity; [exact S|discriminate].
    - assert (NE : strip l <> []) by (rewrite E; discriminate). destruct (detect_kind f (st_format st) l lines NE K) as [A B]. rewrite E in A, B. destruct (detect_format (st_format st) (x :: t)) as [f1 mo] eqn:DF. cbn [fst snd] in A, B.
      assert (KK : k = match mo with Some c => match mo_unpack c with Ok (time, id, data) => Read time id data | Err e => Broken e end | None => match re_match plot_decode (x :: t) with Some _ => Shown | None => Junk (x :: t) end end) by (unfold k, kind_of; now rewrite E, <- A).
      clearbody k. destruct mo as [c|].
      + destruct (mo_unpack c) as [[[time id] data]|e]; cbn [bind]; [|rewrite KK; reflexivity]. rewrite KK in *. unfold fate. cbn [snd fst counts] in *. unfold parse_timestamp. cbn [with_format st_mode st_line st_start st_stop st_format].
        destruct S as [(m & M & ->)|(M & SA & SB & ->)]; rewrite M; cbn [bind].
        * destruct (next_time m time (st_line st)) as [xv|e]; cbn [bind]; [|reflexivity]. cbn [with_format st_start st_stop]. destruct (too_early xv (st_start st)) as [early|e]; cbn [bind]; [|reflexivity]. destruct early; cbn [bind].
          -- apply IH; [exact B|]. left. exists m. cbn [next_line with_format st_mode st_start st_stop]. now split.
          -- destruct (too_late xv (st_stop st)) as [late|e]; cbn [bind]; [|reflexivity]. destruct late; [reflexivity|]. apply (f_equal (tell (Frame xv id data))). apply IH; [exact B|]. left. exists m. cbn [next_line with_format st_mode st_start st_stop]. now split.
        * rewrite SA, SB, !text_bound. unfold settings. cbn [first_frame]. destruct (first_time time (st_line st)) as [[m xv]|e] eqn:FT; cbn [bind]; [|reflexivity]. destruct (init_start_stop m xv start stop) as [[ba bb]|e]; cbn [bind]; [|reflexivity]. rewrite (first_next _ _ _ _ FT). cbn [bind st_start st_stop].
          destruct (too_early xv ba) as [early|e]; cbn [bind]; [|reflexivity]. destruct early; cbn [bind].
          -- apply IH; [exact B|]. left. exists m. cbn [next_line with_format st_mode st_start st_stop]. now split.
          -- destruct (too_late xv bb) as [late|e]; cbn [bind]; [|reflexivity]. destruct late; [reflexivity|]. apply (f_equal (tell (Frame xv id data))). apply IH; [exact B|]. left. exists m. cbn [next_line with_format st_mode st_start st_stop]. now split.
      + destruct (re_match plot_decode (x :: t)); rewrite KK in *; cbn [fate snd fst counts] in *.
        * apply (IH (with_format st f1)); [exact B|]. apply (set_skip st cfg start stop (st_line st) Shown); try reflexivity; [exact S|discriminate].
        * apply (f_equal (tell (Bad (st_line st) (x :: t)))). apply (IH (next_line (with_format st f1))); [exact B|]. apply (set_skip st cfg start stop (st_line st) (Junk (x :: t))); try reflexivity; [exact S|discriminate].
  Qed.
  (** What a run tells the plotter: the first readable line decides the format, the first frame how times are read; then each line
      is judged by itself, up to the first frame behind the end or the first error. *)
  Theorem C83_read line_numbers start stop lines events e
    (l := numbered 1 (map (kind_of (format_of lines)) lines)) (cfg := settings line_numbers start stop l) :
    read (begin line_numbers start stop) lines = (events, e) ->
    exists before rest, l = before ++ rest /\
      Forall (fun nk => fate cfg nk = Ok Skip \/ exists ev, fate cfg nk = Ok (Tell ev)) before /\
      events = List.concat (map (fun nk => match fate cfg nk with Ok (Tell ev) => [ev] | _ => [] end) before) /\
      (rest = [] /\ e = None \/ exists nk r, rest = nk :: r /\ (fate cfg nk = Ok Finish /\ e = None \/ exists x, fate cfg nk = Err x /\ e = Some x)).
  Proof.
    intros H. assert (R : read (begin line_numbers start stop) lines = outcome cfg l).
    { unfold l, cfg. destruct line_numbers.
      - apply (read_outcome (format_of lines) start stop lines (begin true start stop)); [right; now split|]. left. exists MLines. now split.
      - apply (read_outcome (format_of lines) start stop lines (begin false start stop)); [right; now split|]. right. now repeat split. }
    rewrite R in H. clear R. clearbody cfg. revert events e H. generalize l. clear l. induction l as [|nk l IH]; intros events e H; cbn [outcome] in H.
    - injection H as <- <-. exists [], []. repeat split; [constructor|]. now left.
    - destruct (fate cfg nk) as [[|ev|]|x] eqn:FA.
      + destruct (IH events e H) as (b & r & -> & A & B & C). exists (nk :: b), r. split; [reflexivity|]. cbn [map List.concat]. rewrite FA. split; [constructor; [now left|exact A]|]. split; [exact B|exact C].
      + unfold tell in H. destruct (outcome cfg l) as [evs e'] eqn:O. injection H as <- <-. destruct (IH evs e' eq_refl) as (b & r & -> & A & B & C). exists (nk :: b), r. split; [reflexivity|]. cbn [map List.concat fst snd]. rewrite FA. split; [constructor; [right; now exists ev|exact A]|]. split; [cbn [List.app]; f_equal; exact B|exact C].
      + injection H as <- <-. exists [], (nk :: l). repeat split; [constructor|]. right. exists nk, l. split; [reflexivity|]. left. now split.
      + injection H as <- <-. exists [], (nk :: l). repeat split; [constructor|]. right. exists nk, l. split; [reflexivity|]. right. now exists x.
  Qed.

  (** *** How the first frame decides *)
  (** Specification: which times are used when the first frame has this one *)
  Inductive chosen : option chars -> mode -> Prop :=
  | ch_none : chosen None MLines
  | ch_date t d : date_of t = Some d -> chosen (Some t) MDates
  | ch_epoch t f d : date_of t = None -> float_of t = Some f -> large f = true -> from_seconds f = Ok d -> chosen (Some t) MEpoch
  | ch_relative t f : date_of t = None -> float_of t = Some f -> large f = false -> chosen (Some t) MRelative
  | ch_no_number t : date_of t = None -> float_of t = None -> chosen (Some t) MLines
  | ch_no_date t f : date_of t = None -> float_of t = Some f -> large f = true -> from_seconds f = Err ValueError -> chosen (Some t) MLines.
  (** Where a frame is on the axis *)
  Inductive placed : mode -> option chars -> Z -> xval (D := D) (F := F) -> Prop :=
  | pl_line time n : placed MLines time n (XLine n)
  | pl_date t n d : date_of t = Some d -> placed MDates (Some t) n (XDate d)
  | pl_epoch t n f d : float_of t = Some f -> from_seconds f = Ok d -> placed MEpoch (Some t) n (XDate d)
  | pl_relative t n f : float_of t = Some f -> placed MRelative (Some t) n (XSeconds f).
  (** What is meant by a bound that is given relative to a point *)
  Inductive meant : mode -> xval (D := D) (F := F) -> chars -> xval (D := D) (F := F) -> Prop :=
  | me_line x t n : int_input t = Ok n -> meant MLines x t (XLine n)
  | me_seconds x t f : relative_input t = Ok f -> meant MRelative x t (XSeconds f)
  | me_date m d t d' : m = MDates \/ m = MEpoch -> absolute_input t d = Ok d' -> meant m (XDate d) t (XDate d').
  (** The first frame is the reference of --start, and that of --stop unless there is a --start. *)
  Definition limits (m : mode) (x : xval) (start stop : option chars) (a b : bounds) : Prop :=
    exists x', (start = None /\ a = None /\ x' = x \/ exists t, start = Some t /\ meant m x t x' /\ a = Some (BVal x')) /\
      (stop = None /\ b = None \/ exists t y, stop = Some t /\ meant m x' t y /\ b = Some (BVal y)).
  Lemma placed_iff m time n x : next_time m time n = Ok x <-> placed m time n x.
  Proof.
    split.
    - unfold PlotRead.next_time. destruct m; [intros [= <-]; constructor|..]; (destruct time as [t|]; [|discriminate]).
      + destruct (date_of t) eqn:E; [intros [= <-]; now constructor|discriminate].
      + destruct (float_of t) eqn:E; [|discriminate]. destruct (from_seconds f) eqn:E2; [|discriminate]. intros [= <-]. econstructor; eassumption.
      + destruct (float_of t) eqn:E; [|discriminate]. intros [= <-]. now constructor.
    - intros [time' n'|t n' d A|t n' f d A B|t n' f A]; cbn [PlotRead.next_time]; [reflexivity|now rewrite A|rewrite A, B; reflexivity|now rewrite A].
  Qed.
  Lemma chosen_iff time n m x : first_time time n = Ok (m, x) <-> chosen time m /\ placed m time n x.
  Proof.
    split.
    - intros H. split; [|apply placed_iff; now apply first_next]. revert H. unfold PlotRead.first_time. destruct time as [t|]; [|intros [= <- <-]; constructor]. destruct (date_of t) eqn:A; [intros [= <- <-]; econstructor; eassumption|]. destruct (float_of t) eqn:B; [|intros [= <- <-]; now constructor].
      destruct (large f) eqn:C; [|intros [= <- <-]; econstructor; eassumption]. destruct (from_seconds f) as [d|e] eqn:E; [intros [= <- <-]; econstructor; eassumption|]. destruct e; try discriminate. intros [= <- <-]. eapply ch_no_date; eassumption.
    - intros [C P]. apply placed_iff in P. revert P. destruct C as [|t d A|t f d A B L E|t f A B L|t A B|t f A B L E]; cbn [PlotRead.next_time]; unfold PlotRead.first_time; rewrite ?A, ?B, ?L, ?E; cbn [bind]; now intros [= <-].
  Qed.
  Lemma placed_kind m time n x : placed m time n x -> m = MDates \/ m = MEpoch -> exists d, x = XDate d.
  Proof. intros [] [A|A]; try discriminate A; eauto. Qed.
  Lemma meant_iff m x t y : user_input relative_input absolute_input int_input m t x = Ok y <-> meant m x t y.
  Proof.
    split.
    - unfold user_input. destruct m.
      + destruct (int_input t) eqn:E; [|discriminate]. intros [= <-]. now constructor.
      + destruct x; try discriminate. destruct (absolute_input t d) eqn:E; [|discriminate]. intros [= <-]. constructor; [now left|exact E].
      + destruct x; try discriminate. destruct (absolute_input t d) eqn:E; [|discriminate]. intros [= <-]. constructor; [now right|exact E].
      + destruct (relative_input t) eqn:E; [|discriminate]. intros [= <-]. now constructor.
    - intros [x' t' n A|x' t' f A|m' d t' d' [->| ->] A]; cbn [user_input]; now rewrite A.
  Qed.
  Lemma limits_iff m x start stop a b : init_start_stop m x start stop = Ok (a, b) <-> limits m x start stop a b.
  Proof.
    unfold PlotRead.init_start_stop, limits. split.
    - intros H. destruct start as [t|].
      + destruct (user_input relative_input absolute_input int_input m t x) as [s|] eqn:U; [|discriminate]. cbn [bind] in H. apply meant_iff in U. exists s. destruct stop as [t'|].
        * destruct (user_input relative_input absolute_input int_input m t' s) as [s'|] eqn:U'; [|discriminate]. cbn [bind] in H. injection H as <- <-. apply meant_iff in U'. split; right; [exists t|exists t', s']; now repeat split.
        * cbn [bind] in H. injection H as <- <-. split; [right; exists t|left]; now repeat split.
      + cbn [bind] in H. exists x. destruct stop as [t'|].
        * destruct (user_input relative_input absolute_input int_input m t' x) as [s'|] eqn:U'; [|discriminate]. cbn [bind] in H. injection H as <- <-. apply meant_iff in U'. split; [left|right; exists t', s']; now repeat split.
        * cbn [bind] in H. injection H as <- <-. split; left; now repeat split.
    - intros (x' & [(-> & -> & ->)|(t & -> & M & ->)] & [[-> ->]|(t' & y & -> & M' & ->)]); rewrite <- ?meant_iff in *; rewrite ?M; cbn [bind]; rewrite ?M'; reflexivity.
  Qed.
  Theorem C83_settings start stop l n time m a b : first_frame l = Some (n, time) ->
    (settings false start stop l = Ok (m, a, b) <-> exists x, chosen time m /\ placed m time n x /\ limits m x start stop a b).
  Proof.
    intros FF. unfold settings. rewrite FF. split.
    - intros H. destruct (first_time time n) as [[m' x]|] eqn:FT; [|discriminate]. cbn [bind] in H. destruct (init_start_stop m' x start stop) as [[a' b']|] eqn:I; [|discriminate]. cbn [bind] in H. injection H as -> -> ->. apply chosen_iff in FT. exists x. destruct FT. split; [assumption|split; [assumption|now apply limits_iff]].
    - intros (x & C & P & L). assert (FT : first_time time n = Ok (m, x)) by (apply chosen_iff; now split). rewrite FT. cbn [bind]. apply limits_iff in L. now rewrite L.
  Qed.

  (** *** How a frame is judged *)
  Inductive compared : xval (D := D) (F := F) -> xval (D := D) (F := F) -> bool -> Prop :=
  | co_line a b : compared (XLine a) (XLine b) (a <? b)
  | co_date a b : compared (XDate a) (XDate b) (date_ltb a b)
  | co_seconds a b : compared (XSeconds a) (XSeconds b) (float_ltb a b).
  Definition not_early (x : xval) (a : bounds) : Prop := a = None \/ exists s, a = Some (BVal s) /\ compared x s false.
  Definition not_late (x : xval) (b : bounds) : Prop := b = None \/ exists s, b = Some (BVal s) /\ compared s x false.
  Lemma compared_iff x y r : x_lt date_ltb float_ltb x y = Ok r <-> compared x y r.
  Proof. split; [destruct x, y; cbn [x_lt]; intros [= <-]; constructor|intros []; reflexivity]. Qed.
  Theorem C83_verdict m a b n time id data v :
    fate (Ok (m, a, b)) (n, Read time id data) = Ok v <->
    exists x, placed m time n x /\
      ((exists s, a = Some (BVal s) /\ compared x s true) /\ v = Skip \/
       not_early x a /\ (exists s, b = Some (BVal s) /\ compared s x true) /\ v = Finish \/
       not_early x a /\ not_late x b /\ v = Tell (Frame x id data)).
  Proof.
    unfold fate. cbn [snd fst bind]. split.
    - intros H. destruct (next_time m time n) as [x|] eqn:N; [|discriminate]. apply placed_iff in N. cbn [bind] in H. exists x. split; [exact N|].
      destruct (too_early x a) as [early|] eqn:TE; [|discriminate]. cbn [bind] in H.
      assert (EA : (early = true -> exists s, a = Some (BVal s) /\ compared x s true) /\ (early = false -> not_early x a)).
      { unfold PlotRead.too_early in TE. destruct a as [[t|s]|]; [discriminate|apply compared_iff in TE|injection TE as <-]; (split; intros E).
        - exists s. rewrite <- E. now split.
        - right. exists s. rewrite <- E. now split.
        - discriminate.
        - now left. }
      destruct early; [injection H as <-; left; split; [now apply EA|reflexivity]|]. right. destruct EA as [_ EA]. specialize (EA eq_refl).
      destruct (too_late x b) as [late|] eqn:TL; [|discriminate]. cbn [bind] in H.
      unfold PlotRead.too_late in TL. destruct b as [[t|s]|]; [discriminate|apply compared_iff in TL|injection TL as <-].
      + destruct late; injection H as <-; [left|right]; (split; [exact EA|]); (split; [|reflexivity]); [exists s; now split|right; exists s; now split].
      + injection H as <-. right. split; [exact EA|]. split; [now left|reflexivity].
    - intros (x & P & H). apply placed_iff in P. rewrite P. cbn [bind].
      assert (NE : not_early x a -> too_early x a = Ok false) by (intros [->|(s & -> & C)]; [reflexivity|now apply compared_iff in C]).
      destruct H as [[(s & -> & C) ->]|[(E & (s & -> & C) & ->)|(E & [->|(s & -> & C)] & ->)]].
      + apply compared_iff in C. unfold PlotRead.too_early. now rewrite C.
      + rewrite (NE E). cbn [bind]. apply compared_iff in C. unfold PlotRead.too_late. now rewrite C.
      + rewrite (NE E). reflexivity.
      + rewrite (NE E). cbn [bind]. apply compared_iff in C. unfold PlotRead.too_late. now rewrite C.
  Qed.

  (** *** Line numbers *)
  (** The number of a line is one more than the number of lines before it that count. *)
  Theorem C83_numbers l : forall n i m k, nth_error (numbered n l) i = Some (m, k) -> nth_error l i = Some k /\ m = n + Z.of_nat (List.length (filter counts (firstn i l))).
  Proof.
    induction l as [|k0 l IH]; intros n i m k H; [destruct i; discriminate|]. destruct i as [|i]; cbn [numbered nth_error firstn filter List.length] in *; [injection H as <- <-; split; [reflexivity|lia]|].
    destruct (IH _ _ _ _ H) as [A B]. split; [exact A|]. rewrite B. destruct (counts k0); cbn [List.length]; lia.
  Qed.
  (** Restricting the lines by their numbers fails at the first frame: --start and --stop are still texts. *)
  Theorem C83_line_numbers_refuted l r start stop time id data : kind_of (format_of [l]) l = Read time id data -> start <> None \/ stop <> None ->
    read (begin true start stop) (l :: r) = ([], Some TypeError).
  Proof.
    intros K H. assert (FO : format_of (l :: r) = format_of [l]).
    { rewrite !format_cons. destruct (fits Candump l) eqn:A; [reflexivity|]. destruct (fits Log l) eqn:B; [reflexivity|]. exfalso. rewrite format_cons, A, B in K. unfold kind_of in K. cbn [format_of find] in K. destruct (strip l); [discriminate|]. destruct (re_match plot_decode _); discriminate. }
    rewrite (read_outcome (format_of (l :: r)) start stop (l :: r) (begin true start stop) (settings true start stop [])); [|right; now split|left; exists MLines; now split].
    rewrite FO. cbn [map numbered outcome]. rewrite K. unfold fate, settings. cbn [snd fst bind PlotRead.next_time]. destruct start, stop; try reflexivity. now destruct H.
  Qed.
  (** A line with an odd number of digits, or with too long an identifier, is not reported but ends the command. *)
  Theorem C83_odd_refuted :
    (forall line_numbers start stop r, read (begin line_numbers start stop) (txt "can0 123 [1] 0" :: r) = ([], Some ValueError)) /\
    (forall line_numbers start stop r, read (begin line_numbers start stop) (txt "can0 0123456789 [1] 00" :: r) = ([], Some StructError)).
  Proof. split; intros [|] start stop r; vm_compute; reflexivity. Qed.
End Input.

(** Hypotheses: both formats, a frame before the start, junk, output of decode, a frame behind the end *)
Definition demo_log : list chars := map txt ["";
  "junk"; " (000.5)  vcan0  1F0   [2]  1B C1"; "Message("; " (001.5)  vcan0  12345678   [8]  00 11 22 33 44 55 66 77 :: X(a: 1)"; "(2.0) vcan0 1F0#1BC1"; " (003.5)  vcan0  1F0   [0]"; " (009.5)  vcan0  1F0   [0]"]%string.
(** Seconds in tenths, for the example *)
Definition demo_float (t : chars) : option Z := Some (hex_int (filter is_digit t)).
Definition demo_read := read (D := Z) (F := Z) (fun _ => None) demo_float (fun _ => false) (fun f => Ok f) Z.ltb Z.ltb (fun t => Ok (hex_int t)) (fun _ d => Ok d) (fun t => Ok (hex_int t)).
Example C83_hypotheses :
  demo_read (begin false (Some (txt "10")) (Some (txt "40"))) demo_log =
    ([Bad 1 (txt "junk"); Frame (XSeconds 21) 305419896 [0; 17; 34; 51; 68; 85; 102; 119]; Bad 4 (txt "(2.0) vcan0 1F0#1BC1"); Frame (XSeconds 53) 496 []], None) /\
  format_of demo_log = Some Candump /\
  demo_read (begin false None None) (map txt ["(1594172461.968006) vcan0 1F0#0000000000001BC1"; "vcan0  1F0   [2]  1B C1"]%string) =
    ([Frame (XSeconds 1554893216373178374) 496 [0; 0; 0; 0; 0; 0; 27; 193]; Bad 2 (txt "vcan0  1F0   [2]  1B C1")], None) /\
  printed_ok (mkPrinted (txt " ") (Some (txt "001.5", txt "  ")) (mkColumns (txt "vcan0") (txt "  ") true 305419896 (txt "   ") (txt "2") (txt "  ")) [(27, 1%nat); (193, 0%nat)] (txt ":: X(a: 1)")) /\
  logged_ok (mkLogged (txt "1594172461") (txt "968006") (txt " ") (txt "vcan0") (txt " ") false 496 [27; 193] (Some (txt " ", "R"%char))) /\
  kind_of (format_of [txt "vcan0  1F0   [2]  1B C1"]) (txt "vcan0  1F0   [2]  1B C1") = Read None 496 [27; 193].
Proof.
  split; [vm_compute; reflexivity|]. split; [vm_compute; reflexivity|]. split; [vm_compute; reflexivity|]. split; [|split; [|vm_compute; reflexivity]].
  - split; [reflexivity|]. split; [unfold columns_ok, run, blank; vm_compute; repeat split; discriminate|]. split; [repeat constructor; cbn; lia|]. split; [|split; reflexivity].
    right. exists (txt " X(a: 1)"). split; reflexivity.
  - split; [split; [discriminate|reflexivity]|]. split; [split; [discriminate|reflexivity]|]. split; [split; [discriminate|reflexivity]|]. split; [split; [discriminate|reflexivity]|].
    split; [vm_compute; intuition discriminate|]. split; [split; [discriminate|reflexivity]|]. split; [vm_compute; repeat split; discriminate|]. split; [repeat constructor; cbn; lia|]. split; [split; [discriminate|reflexivity]|now left].
Qed.
