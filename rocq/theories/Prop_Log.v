(** Prop_Log: C42 and C43, the log reader. *)
From Coq Require Import Ascii.
From Verif Require Import Base CSource Regex RegexLemmas Logreader LogSpec LogProofs LogPcan.
Local Open Scope string_scope.
Local Open Scope Z_scope.
Local Open Scope list_scope.

(** What candump prints after the length: data and possibly its ASCII form, "remote request", or the data of
    an error frame and ERRORFRAME. *)
Inductive cpayload := CData (l : list (Z * nat)) (t : chars) | CRemote (w t : chars) | CError (l : list (Z * nat)) (t : chars).
Definition cp_text (p : cpayload) : chars :=
  match p with
  | CData l t => data_text l ++ t
  | CRemote w t => txt "remote request" ++ w ++ t
  | CError l t => data_text l ++ txt "ERRORFRAME" ++ t
  end.
Definition cp_ok (p : cpayload) : Prop :=
  match p with
  | CData l t => data_ok l /\ ascii_tail t
  | CRemote w t => forallb is_space w = true /\ ascii_tail t
  | CError l t => data_ok l /\ forallb dot t = true
  end.
(** The frame to be read; nothing for an error frame *)
Definition cp_frame (c : columns) (p : cpayload) (k : ts_kind) (ts : chars) : option dataframe :=
  match p with
  | CData l _ => Some (mkFrame (co_channel c) (co_id c) (co_ext c) (map fst l) false k ts)
  | CRemote _ _ => Some (mkFrame (co_channel c) (co_id c) (co_ext c) [] true k ts)
  | CError _ _ => None
  end.

Lemma tail_heads t : ascii_tail t -> head_not is_space t /\ head_not (is_char " ") t /\ no_pair hex_upper t /\ head_not (Ascii.eqb "r") t.
Proof. intros [ -> |(u & -> & U)]; cbn; [auto|]; destruct u; auto. Qed.
Lemma data_head_space l t : head_not is_space t -> head_not is_space (data_text l ++ t).
Proof.
  destruct l as [|[b n] l]; [auto|]; intros _; rewrite data_text_cons, hex_fixed2; cbn [app head_not].
  apply hex_space, hexdigit_upper, Z.mod_pos_bound; lia.
Qed.
Lemma cp_head p : cp_ok p -> head_not is_space (cp_text p).
Proof.
  destruct p as [l t|w t|l t]; intros OK; cbn [cp_text cp_ok] in *.
  - apply data_head_space, tail_heads, OK.
  - reflexivity.
  - apply data_head_space; reflexivity.
Qed.

Lemma candump_id_value ext id : candump_id_ok ext id ->
  hex_int (candump_id ext id) = id /\ Nat.ltb 3 (List.length (candump_id ext id)) = ext.
Proof.
  unfold candump_id_ok, candump_id; intros H; rewrite hex_fixed_length, hex_int_fixed; [destruct ext; auto|].
  destruct ext; [change (16 ^ Z.of_nat 8) with (2 ^ 32)|change (16 ^ Z.of_nat 3) with (2 ^ 12)]; exact H.
Qed.

(** The three forms of data lead to the right frame, whatever the timestamp column. *)
Lemma payload_frame p pt c0 k ts tsc :
  columns_ok c0 -> cp_ok p ->
  (tsc = [] /\ ts = [] \/ tsc = [("timestamp"%string, ts)]) ->
  match pt with
  | PDefault => k = TMissing
  | PTimestamped => k = TSeconds /\ float_ok ts = true
  | PLog => False
  | PAbsolute => k = TDate /\ date_ok ts = true
  | _ => False
  end ->
  exists c', rmatch (seqs data_part) (("can_id"%string, candump_id (co_ext c0) (co_id c0)) :: ("channel"%string, co_channel c0) :: tsc) (cp_text p) fin = Some c' /\
  unpack pt c' = Ok (cp_frame c0 p k ts).
Proof.
  intros C OK TS K.
  assert (IDV := candump_id_value (co_ext c0) (co_id c0) (proj1 (proj2 (proj2 C)))); destruct IDV as [V L].
  assert (GT : grp (("can_data"%string, []) :: ("can_id"%string, candump_id (co_ext c0) (co_id c0)) :: ("channel"%string, co_channel c0) :: tsc) "timestamp" = ts).
  { destruct TS as [[ -> -> ]| -> ]; reflexivity. }
  assert (GE : group (("can_data"%string, []) :: ("can_id"%string, candump_id (co_ext c0) (co_id c0)) :: ("channel"%string, co_channel c0) :: tsc) "error_frame" = None).
  { destruct TS as [[ -> -> ]| -> ]; reflexivity. }
  destruct p as [l t|w t|l t]; cbn [cp_text cp_ok cp_frame] in *.
  - destruct OK as [D T]; destruct (tail_heads t T) as (H1 & H2 & H3 & H4).
    eexists; split; [apply data_part_data; [exact H2|exact H3|exact H4|apply after_quote; exact T]|].
    destruct pt; try contradiction; cbn [unpack]; unfold candump_unpack;
      (match goal with |- context [group ?c "error_frame"] => change (group c "error_frame") with
         (group (("can_data"%string, []) :: ("can_id"%string, candump_id (co_ext c0) (co_id c0)) :: ("channel"%string, co_channel c0) :: tsc) "error_frame") end;
       rewrite GE;
       match goal with |- context [grp ?c "can_data"] => change (grp c "can_data") with (data_text l);
         change (grp c "timestamp") with (grp (("can_data"%string, []) :: ("can_id"%string, candump_id (co_ext c0) (co_id c0)) :: ("channel"%string, co_channel c0) :: tsc) "timestamp");
         change (grp c "can_id") with (candump_id (co_ext c0) (co_id c0)); change (grp c "channel") with (co_channel c0) end;
       rewrite data_not_remote, unhexlify_data by exact D; cbn [bind]; rewrite GT, V, L).
    + subst k; cbn [bind]; destruct TS as [[_ -> ]|_]; reflexivity.
    + destruct K as [ -> K]; rewrite K; reflexivity.
    + destruct K as [ -> K]; rewrite K; reflexivity.
  - destruct OK as [W T]; destruct (tail_heads t T) as (H1 & H2 & H3 & H4).
    eexists; split; [apply data_part_remote; [exact W|exact H1|apply after_quote; exact T]|].
    destruct pt; try contradiction; cbn [unpack]; unfold candump_unpack;
      (match goal with |- context [group ?c "error_frame"] => change (group c "error_frame") with
         (group (("can_data"%string, []) :: ("can_id"%string, candump_id (co_ext c0) (co_id c0)) :: ("channel"%string, co_channel c0) :: tsc) "error_frame") end;
       rewrite GE;
       match goal with |- context [grp ?c "can_data"] => change (grp c "can_data") with (txt "remote request");
         change (grp c "timestamp") with (grp (("can_data"%string, []) :: ("can_id"%string, candump_id (co_ext c0) (co_id c0)) :: ("channel"%string, co_channel c0) :: tsc) "timestamp");
         change (grp c "can_id") with (candump_id (co_ext c0) (co_id c0)); change (grp c "channel") with (co_channel c0) end;
       rewrite texteq_true; cbn [orb bind]; rewrite GT, V, L).
    + subst k; reflexivity.
    + destruct K as [ -> K]; rewrite K; reflexivity.
    + destruct K as [ -> K]; rewrite K; reflexivity.
  - destruct OK as [D T].
    eexists; split; [apply data_part_data; [reflexivity|reflexivity|reflexivity|apply after_error; exact T]|].
    destruct pt; try contradiction; reflexivity.
Qed.

Lemma detect_parse line p f : detect line = Some p -> pmatch p line = f -> parse None line = (Some p, f).
Proof. intros D <-; unfold parse; rewrite D; reflexivity. Qed.
Lemma pmatch_caps p line c : re_match (pattern_re p) line = Some c -> pmatch p line = unpack p c.
Proof. intros E; unfold pmatch; rewrite E; reflexivity. Qed.

(** C42: what [candump] prints is read back: channel, id, extended flag, data, remote flag; error frames are
    skipped. *)
Theorem C42_candump : forall w0 c p,
  forallb is_space w0 = true -> columns_ok c -> cp_ok p ->
  parse None (w0 ++ columns_text c (cp_text p)) = (Some PDefault, Ok (cp_frame c p TMissing [])).
Proof.
  intros w0 c p W0 C P.
  destruct (payload_frame p PDefault c TMissing [] [] C P) as (c' & M & U); [left; auto|reflexivity|].
  pose proof (default_columns w0 c (cp_text p) c' W0 C (cp_head p P) M) as E.
  apply detect_parse; [|rewrite (pmatch_caps PDefault _ c' E); exact U].
  unfold detect, all_patterns; cbn [find]; unfold matches_line at 1; cbn [pattern_re]; rewrite E; reflexivity.
Qed.

(** With a timestamp in seconds *)
Theorem C42_candump_timestamped : forall w0 a b wt c p,
  forallb is_space w0 = true -> run is_digit a -> run is_digit b -> blank wt -> columns_ok c -> cp_ok p ->
  parse None (w0 ++ "("%char :: seconds_text a b ++ ")"%char :: wt ++ columns_text c (cp_text p)) =
  (Some PTimestamped, Ok (cp_frame c p TSeconds (seconds_text a b))).
Proof.
  intros w0 a b wt c p W0 A B WT C P.
  assert (DG : forall d, forallb is_digit d = true -> forallb num_dot d = true /\ filter (Ascii.eqb ".") d = []).
  { clear; induction d as [|x d IH]; intros H; [auto|].
    cbn in H; apply andb_true_iff in H; destruct H as [HX H]; destruct (IH H) as [I1 I2].
    cbn [forallb filter]; rewrite I1, I2; split; [apply classes in HX; rewrite (proj2 HX); reflexivity|].
    replace (Ascii.eqb "." x) with false; [reflexivity|symmetry; apply Ascii.eqb_neq; intros <-; discriminate HX]. }
  assert (TS : run num_dot (seconds_text a b)).
  { unfold seconds_text; split; [destruct a; discriminate|].
    rewrite forallb_app; cbn; rewrite (proj1 (DG a (proj2 A))), (proj1 (DG b (proj2 B))); reflexivity. }
  assert (F : float_ok (seconds_text a b) = true).
  { unfold float_ok, seconds_text; rewrite existsb_app, filter_app; cbn [filter].
    change (Ascii.eqb "." ".") with true; cbv iota; rewrite (proj2 (DG a (proj2 A))), (proj2 (DG b (proj2 B))); cbn [app List.length].
    destruct A as [AN A]; destruct a as [|x a]; [contradiction|].
    cbn in A |- *; apply andb_true_iff in A; rewrite (proj1 A); reflexivity. }
  destruct (payload_frame p PTimestamped c TSeconds (seconds_text a b) [("timestamp"%string, seconds_text a b)] C P) as (c' & M & U); [right; auto|auto|].
  pose proof (timestamped_columns w0 (seconds_text a b) wt c (cp_text p) c' W0 TS WT C (cp_head p P) M) as E.
  apply detect_parse; [|rewrite (pmatch_caps PTimestamped _ c' E); exact U].
  unfold detect, all_patterns; cbn [find]; unfold matches_line; cbn [pattern_re].
  rewrite (stamped_not_default w0 (seconds_text a b) wt c (cp_text p) W0 (num_dot_non _ (proj2 TS)) WT C), E; reflexivity.
Qed.

Lemma days_month y m : 1 <= m <= 12 -> days_in y m = month_days y m.
Proof.
  intros H; unfold days_in, month_days, leap.
  assert (M : m = 1 \/ m = 2 \/ m = 3 \/ m = 4 \/ m = 5 \/ m = 6 \/ m = 7 \/ m = 8 \/ m = 9 \/ m = 10 \/ m = 11 \/ m = 12) by lia.
  destruct M as [ -> |[ -> |[ -> |[ -> |[ -> |[ -> |[ -> |[ -> |[ -> |[ -> |[ -> | -> ]]]]]]]]]]]; try reflexivity.
  cbn [Z.eqb Pos.eqb].
  destruct (y mod 4 =? 0) eqn:E4; [reflexivity|].
  destruct (y mod 400 =? 0) eqn:E400; [|reflexivity].
  exfalso; apply Z.eqb_neq in E4; apply Z.eqb_eq in E400; Z.div_mod_to_equations; lia.
Qed.

Lemma date_ok_valid d : date_valid d -> date_ok (date_text d) = true.
Proof.
  intros (Y & MO & D & H & MI & SE & F & L).
  unfold date_ok, date_text.
  set (f1 := d_frac d) in *.
  assert (X : forall n v rest a, (a = n)%nat -> firstn a (dec_fixed n v ++ rest) = dec_fixed n v).
  { intros n v rest a ->; rewrite <- (dec_fixed_length n v) at 1; rewrite firstn_app, firstn_all, Nat.sub_diag; cbn; apply app_nil_r. }
  assert (SK : forall n v x rest, skipn (S n) (dec_fixed n v ++ x :: rest) = rest).
  { intros n v x rest; rewrite skipn_app, dec_fixed_length.
    rewrite skipn_all2 by (rewrite dec_fixed_length; lia).
    replace (S n - n)%nat with 1%nat by lia; reflexivity. }
  assert (SS : forall a b (l : chars), skipn (a + b) l = skipn b (skipn a l)).
  { intros a b l; revert l; induction a as [|a IH]; intros l; [reflexivity|destruct l; [cbn; destruct b; reflexivity|apply IH]]. }
  set (l := dec_fixed 4 (d_year d) ++ _).
  assert (E5 : skipn 5 l = dec_fixed 2 (d_month d) ++ "-"%char :: dec_fixed 2 (d_day d) ++ " "%char ::
     dec_fixed 2 (d_hour d) ++ ":"%char :: dec_fixed 2 (d_minute d) ++ ":"%char :: dec_fixed 2 (d_second d) ++ "."%char :: f1) by apply (SK 4%nat).
  assert (E8 : skipn 8 l = dec_fixed 2 (d_day d) ++ " "%char ::
     dec_fixed 2 (d_hour d) ++ ":"%char :: dec_fixed 2 (d_minute d) ++ ":"%char :: dec_fixed 2 (d_second d) ++ "."%char :: f1).
  { rewrite (SS 5%nat 3%nat l : skipn 8 l = _), E5; apply (SK 2%nat). }
  assert (E11 : skipn 11 l = dec_fixed 2 (d_hour d) ++ ":"%char :: dec_fixed 2 (d_minute d) ++ ":"%char :: dec_fixed 2 (d_second d) ++ "."%char :: f1).
  { rewrite (SS 8%nat 3%nat l : skipn 11 l = _), E8; apply (SK 2%nat). }
  assert (E14 : skipn 14 l = dec_fixed 2 (d_minute d) ++ ":"%char :: dec_fixed 2 (d_second d) ++ "."%char :: f1).
  { rewrite (SS 11%nat 3%nat l : skipn 14 l = _), E11; apply (SK 2%nat). }
  assert (E17 : skipn 17 l = dec_fixed 2 (d_second d) ++ "."%char :: f1).
  { rewrite (SS 14%nat 3%nat l : skipn 17 l = _), E14; apply (SK 2%nat). }
  assert (E0 : firstn 4 l = dec_fixed 4 (d_year d)) by (apply X; reflexivity).
  assert (LN : List.length l = (20 + List.length f1)%nat).
  { unfold l; repeat (rewrite app_length || rewrite dec_fixed_length || cbn [List.length]); lia. }
  rewrite E5, E8, E11, E14, E17; change (skipn 0 l) with l; rewrite E0, !X by reflexivity.
  assert (DD : days_in (d_year d) (d_month d) <= 31).
  { rewrite days_month by lia; unfold month_days.
    destruct (d_month d =? 2); [destruct (leap _); lia|].
    match goal with |- (if ?b then _ else _) <= _ => destruct b; lia end. }
  rewrite !dec_int_fixed by (cbn; lia).
  rewrite LN; rewrite <- days_month by lia.
  rewrite !andb_true_iff, !Z.leb_le, Nat.leb_le; lia.
Qed.

(** With a calendar date *)
Theorem C42_candump_absolute : forall w0 d wt c p,
  forallb is_space w0 = true -> date_valid d -> blank wt -> columns_ok c -> cp_ok p ->
  parse None (w0 ++ "("%char :: date_text d ++ ")"%char :: wt ++ columns_text c (cp_text p)) =
  (Some PAbsolute, Ok (cp_frame c p TDate (date_text d))).
Proof.
  intros w0 d wt c p W0 DV WT C P.
  pose proof (date_ok_valid d DV) as DO.
  assert (FR : run is_digit (d_frac d)) by apply DV.
  destruct (payload_frame p PAbsolute c TDate (date_text d) [("timestamp"%string, date_text d)] C P) as (c' & M & U); [right; auto|auto|].
  pose proof (absolute_columns w0 d wt c (cp_text p) c' W0 FR WT C (cp_head p P) M) as E.
  apply detect_parse; [|rewrite (pmatch_caps PAbsolute _ c' E); exact U].
  unfold detect, all_patterns; cbn [find]; unfold matches_line; cbn [pattern_re].
  assert (YR : run is_digit (dec_fixed 4 (d_year d))).
  { split; [intros X; apply (f_equal (@List.length ascii)) in X; rewrite dec_fixed_length in X; discriminate|apply dec_fixed_digit]. }
  assert (D1 : re_match candump_default (w0 ++ "("%char :: date_text d ++ ")"%char :: wt ++ columns_text c (cp_text p)) = None).
  { unfold date_text.
    set (tl := dec_fixed 2 (d_minute d) ++ ":"%char :: dec_fixed 2 (d_second d) ++ "."%char :: d_frac d).
    replace (w0 ++ "("%char :: (dec_fixed 4 (d_year d) ++ "-"%char :: dec_fixed 2 (d_month d) ++ "-"%char :: dec_fixed 2 (d_day d) ++ " "%char :: dec_fixed 2 (d_hour d) ++ ":"%char :: tl) ++
               ")"%char :: wt ++ columns_text c (cp_text p))
      with (w0 ++ ("("%char :: dec_fixed 4 (d_year d) ++ "-"%char :: dec_fixed 2 (d_month d) ++ "-"%char :: dec_fixed 2 (d_day d)) ++ [" "%char] ++
            dec_fixed 2 (d_hour d) ++ ":"%char :: tl ++ ")"%char :: wt ++ columns_text c (cp_text p))
      by (repeat (rewrite <- app_assoc; cbn [app]); reflexivity).
    apply default_reject_hex; [exact W0| |split; [discriminate|reflexivity]|apply digits_hex, dec_fixed_digit|reflexivity|reflexivity].
    assert (NS : forall n v, forallb non_space (dec_fixed n v) = true).
    { intros n v; apply forallb_forall; intros x X; pose proof (dec_fixed_digit n v) as G; rewrite forallb_forall in G.
      unfold non_space; rewrite (digit_space x (G x X)); reflexivity. }
    split; [discriminate|].
    cbn [forallb]; rewrite forallb_app, NS; cbn [forallb]; rewrite forallb_app, NS; cbn [forallb]; rewrite NS; reflexivity. }
  assert (R : forall g l, re_match (seqs (sp0l :: ch "(" :: Group "timestamp" (Plus g (Chr num_dot)) :: ch ")" :: (if g then sp1 else sp1l) :: l))
              (w0 ++ "("%char :: date_text d ++ ")"%char :: wt ++ columns_text c (cp_text p)) = None).
  { intros g l; unfold date_text; rewrite <- app_assoc; cbn [app].
    destruct g.
    - apply paren_digits_reject; [exact W0|exact YR|reflexivity|discriminate].
    - unfold re_match; fold fin.
      change (rmatch (Seq sp0l (Seq (ch "(") (Seq (Group "timestamp" (Plus false (Chr num_dot))) (Seq (ch ")") (seqs (sp1l :: l)))))) []
        (w0 ++ "("%char :: dec_fixed 4 (d_year d) ++ "-"%char :: (dec_fixed 2 (d_month d) ++ "-"%char :: dec_fixed 2 (d_day d) ++ " "%char :: dec_fixed 2 (d_hour d) ++ ":"%char ::
           dec_fixed 2 (d_minute d) ++ ":"%char :: dec_fixed 2 (d_second d) ++ "."%char :: d_frac d) ++ ")"%char :: wt ++ columns_text c (cp_text p)) fin = None).
      unfold sp0l; rewrite seq_star_exact; [|reflexivity|exact W0|reflexivity].
      unfold ch at 1; rewrite seq_chr; change (is_char "(" "(") with true; cbv iota.
      rewrite seq_gplus_exact; [|reflexivity|apply YR| |reflexivity].
      + reflexivity.
      + destruct YR as [_ YR]; rewrite forallb_forall in YR |- *; intros x X; apply YR in X; apply classes in X; apply X. }
  assert (D2 : re_match candump_timestamped (w0 ++ "("%char :: date_text d ++ ")"%char :: wt ++ columns_text c (cp_text p)) = None) by apply (R true).
  assert (D3 : re_match candump_log (w0 ++ "("%char :: date_text d ++ ")"%char :: wt ++ columns_text c (cp_text p)) = None) by apply (R false).
  rewrite D1, D2, D3, E; reflexivity.
Qed.

(** The compact log format [(seconds) channel id#data], with or without CAN FD flags and direction *)
Inductive lpayload := LData (f : option ascii) (l : list Z) (t : chars) | LRemote (t : chars).
Definition lp_text (p : lpayload) : chars := match p with LData f l t => fd_text f ++ bytes_text l ++ t | LRemote t => "R"%char :: t end.
Definition lp_ok (p : lpayload) : Prop := match p with LData f l t => fd_ok f /\ bytes_ok l /\ rt_tail t | LRemote t => rt_tail t end.
Definition lp_bytes (p : lpayload) : list Z := match p with LData _ l _ => l | LRemote _ => [] end.
Definition lp_remote (p : lpayload) : bool := match p with LData _ _ _ => false | LRemote _ => true end.

Lemma bytes_data l : bytes_text l = data_text (map (fun b => (b, O)) l).
Proof.
  induction l as [|b l IH]; [reflexivity|].
  cbn [map]; rewrite data_text_cons, <- IH; reflexivity.
Qed.

Theorem C42_candump_log : forall w0 a b wt chn w1 ext id p,
  forallb is_space w0 = true -> run is_digit a -> run is_digit b -> blank wt -> run non_space chn -> blank w1 ->
  candump_id_ok ext id -> lp_ok p ->
  parse None (w0 ++ "("%char :: seconds_text a b ++ ")"%char :: wt ++ chn ++ w1 ++ candump_id ext id ++ "#"%char :: lp_text p) =
  (Some PLog, Ok (Some (mkFrame chn id ext (lp_bytes p) (lp_remote p) TAbsolute (seconds_text a b)))).
Proof.
  intros w0 a b wt chn w1 ext id p W0 A B WT CH W1 ID P.
  assert (DG : forall d, forallb is_digit d = true -> forallb num_dot d = true /\ filter (Ascii.eqb ".") d = []).
  { clear; induction d as [|x d IH]; intros H; [auto|].
    cbn in H; apply andb_true_iff in H; destruct H as [HX H]; destruct (IH H) as [I1 I2].
    cbn [forallb filter]; rewrite I1, I2; split; [apply classes in HX; rewrite (proj2 HX); reflexivity|].
    replace (Ascii.eqb "." x) with false; [reflexivity|symmetry; apply Ascii.eqb_neq; intros <-; discriminate HX]. }
  assert (TS : run num_dot (seconds_text a b)).
  { unfold seconds_text; split; [destruct a; discriminate|].
    rewrite forallb_app; cbn; rewrite (proj1 (DG a (proj2 A))), (proj1 (DG b (proj2 B))); reflexivity. }
  assert (F : float_ok (seconds_text a b) = true).
  { unfold float_ok, seconds_text; rewrite existsb_app, filter_app; cbn [filter].
    change (Ascii.eqb "." ".") with true; cbv iota; rewrite (proj2 (DG a (proj2 A))), (proj2 (DG b (proj2 B))); cbn [app List.length].
    destruct A as [AN A]; destruct a as [|x a]; [contradiction|].
    cbn in A |- *; apply andb_true_iff in A; rewrite (proj1 A); reflexivity. }
  assert (IDR : run hex_upper (candump_id ext id)).
  { split; [|apply hex_fixed_upper].
    intros X; apply (f_equal (@List.length ascii)) in X; unfold candump_id in X; rewrite hex_fixed_length in X; destruct ext; discriminate. }
  destruct (candump_id_value ext id ID) as [V L].
  set (line := w0 ++ "("%char :: seconds_text a b ++ ")"%char :: wt ++ chn ++ w1 ++ candump_id ext id ++ "#"%char :: lp_text p).
  assert (D1 : re_match candump_default line = None).
  { unfold line; destruct (candump_id_cons ext id) as (y & t & -> & Y).
    replace (w0 ++ "("%char :: seconds_text a b ++ ")"%char :: wt ++ chn ++ w1 ++ (y :: t) ++ "#"%char :: lp_text p)
      with (w0 ++ ("("%char :: seconds_text a b ++ [")"%char]) ++ wt ++ chn ++ w1 ++ y :: t ++ "#"%char :: lp_text p)
      by (cbn [app]; rewrite <- !app_assoc; reflexivity).
    apply default_reject; auto; apply paren_run, num_dot_non, TS. }
  assert (D2 : re_match candump_timestamped line = None) by (apply timestamped_reject_log; assumption).
  assert (E : exists dt, re_match candump_log line = Some [("can_data"%string, dt); ("can_id"%string, candump_id ext id); ("channel"%string, chn); ("timestamp"%string, seconds_text a b)] /\
              match p with LData _ l _ => dt = bytes_text l | LRemote _ => dt = txt "R" end).
  { unfold line; rewrite log_columns by assumption.
    destruct p as [f l t|t]; cbn [lp_text lp_ok] in *.
    - destruct P as (PF & PB & PT); rewrite log_data by assumption; eauto.
    - rewrite log_remote by assumption; eauto. }
  destruct E as (dt & E & DT).
  apply detect_parse.
  - unfold detect, all_patterns; cbn [find]; unfold matches_line; cbn [pattern_re]; rewrite D1, D2, E; reflexivity.
  - rewrite (pmatch_caps PLog _ _ E); cbn [unpack]; unfold candump_unpack.
    change (group _ "error_frame") with (@None chars); cbv iota.
    match goal with |- context [grp ?c "can_data"] => change (grp c "can_data") with dt; change (grp c "timestamp") with (seconds_text a b);
      change (grp c "can_id") with (candump_id ext id); change (grp c "channel") with chn end.
    rewrite F, V, L.
    destruct p as [f l t|t]; subst dt; [|reflexivity].
    rewrite bytes_data, data_not_remote, unhexlify_data.
    + cbn [bind lp_bytes lp_remote]; rewrite map_map, map_id; reflexivity.
    + destruct P as (_ & PB & _); unfold data_ok; apply Forall_forall; intros e IE.
      apply in_map_iff in IE; destruct IE as (x & <- & IX); unfold bytes_ok in PB; rewrite Forall_forall in PB; apply PB; exact IX.
Qed.

(** ** PCAN *)
Lemma pcan_id_value ext id : pcan_id_ok ext id ->
  hex_int (pcan_id_text ext id) = id /\ Nat.ltb 4 (List.length (pcan_id_text ext id)) = ext.
Proof.
  unfold pcan_id_ok, pcan_id_text; intros H; rewrite hex_fixed_length, hex_int_fixed; [destruct ext; auto|].
  destruct ext; [change (16 ^ Z.of_nat 8) with (2 ^ 32)|change (16 ^ Z.of_nat 4) with (2 ^ 16)]; exact H.
Qed.
Lemma fromhex_spaces n l : fromhex (spaces n ++ l) = fromhex l.
Proof. induction n as [|n IH]; [reflexivity|exact IH]. Qed.
Lemma fromhex_data l : data_ok l -> fromhex (data_text l) = Ok (map fst l).
Proof.
  intros D; induction D as [|[b n] l B D IH]; [reflexivity|].
  rewrite data_text_cons, hex_fixed2; cbn [app fromhex fst] in *.
  rewrite hexdigit_space by (apply Z.mod_pos_bound; lia).
  rewrite !hexdigit_any by (apply Z.mod_pos_bound; lia); cbn [andb].
  rewrite fromhex_spaces, IH; cbn [bind map fst].
  rewrite !hexdigit_value by (apply Z.mod_pos_bound; lia).
  unfold byte_ok in B; do 2 f_equal.
  rewrite (Z.mod_small (b / 16)) by (split; [apply Z.div_pos; lia|apply Z.div_lt_upper_bound; lia]).
  pose proof (Z.div_mod b 16); lia.
Qed.
Lemma data_not_rtr l : texteq (data_text l) "RTR" = false.
Proof.
  destruct l as [|[b n] l]; [reflexivity|].
  rewrite data_text_cons, hex_fixed2; cbn [app].
  apply texteq_head; cbn; apply hexdigit_neq; [apply Z.mod_pos_bound; lia|reflexivity].
Qed.
Lemma payload_value pl : payload_ok pl ->
  (if texteq (payload_text pl) "RTR" then Ok ([], true) else let* b := fromhex (payload_text pl) in Ok (b, false)) =
  Ok (payload_bytes pl, payload_remote pl).
Proof.
  destruct pl as [l|]; intros H; [|reflexivity].
  cbn [payload_text payload_bytes payload_remote]; rewrite data_not_rtr, fromhex_data by exact H; reflexivity.
Qed.
Lemma digits_float d : forallb is_digit d = true -> float_ok_any d = true.
Proof.
  unfold float_ok_any; rewrite !forallb_forall; intros H x X; apply H in X; apply classes in X; rewrite (proj2 X); reflexivity.
Qed.
Lemma seconds_float a b : run is_digit a -> run is_digit b -> float_ok_any (seconds_text a b) = true.
Proof.
  intros A B; unfold seconds_text, float_ok_any; rewrite forallb_app; cbn [forallb].
  fold (float_ok_any a); fold (float_ok_any b); rewrite (digits_float a (proj2 A)), (digits_float b (proj2 B)); reflexivity.
Qed.

Theorem C42_pcan_v10 : forall p, pcan_ok p -> List.length (pc_dlc p) = 1%nat ->
  parse None (v10_text p) =
  (Some PV10, Ok (Some (mkFrame (txt "pcanx") (pc_id p) (pc_ext p) (payload_bytes (pc_payload p)) (payload_remote (pc_payload p)) TMillis (pc_a p)))).
Proof.
  intros p OK SG; apply detect_parse; [apply v10_detect; assumption|].
  rewrite (pmatch_caps PV10 _ _ (v10_match p OK SG)).
  pose proof (pcan_id_value (pc_ext p) (pc_id p)) as IV.
  pose proof (payload_value (pc_payload p)) as PV.
  pose proof (digits_float (pc_a p)) as FA.
  fields p OK; fold_text.
  destruct (IV ID) as [V L].
  cbn [unpack]; unfold pcan_unpack.
  match goal with |- context [grp ?c "can_id"] => change (grp c "can_id") with (pcan_id_text ext id); change (grp c "timestamp") with a;
    change (group c "can_data") with (Some (payload_text pl)) end.
  rewrite V, L, (FA (proj2 A)); cbv zeta.
  pose proof (PV PL) as PV'; clear PV; rewrite PV'; reflexivity.
Qed.

(** Rows of type Error or Warng carry no frame. *)
Definition pcan_skipped (p : pcan) : Prop := pc_type p = txt "Error" \/ pc_type p = txt "Warng".

Lemma v1_unpack p (hc : bool) pt :
  pcan_ok p -> (if hc then pt = PV12 \/ pt = PV13 else pt = PV11) ->
  (pcan_skipped p -> unpack pt (v1_caps p hc) = Ok None) /\
  (~ pcan_skipped p ->
   unpack pt (v1_caps p hc) =
   Ok (Some (mkFrame (if hc then txt "pcan" ++ [pc_chan p] else txt "pcanx") (pc_id p) (pc_ext p)
              (payload_bytes (pc_payload p)) (payload_remote (pc_payload p)) TMillis (seconds_text (pc_a p) (pc_b p))))).
Proof.
  intros OK PT.
  pose proof (pcan_id_value (pc_ext p) (pc_id p)) as IV.
  pose proof (payload_value (pc_payload p)) as PV.
  pose proof (seconds_float (pc_a p) (pc_b p)) as FA.
  unfold pcan_skipped, v1_caps.
  fields p OK; fold_text.
  destruct (IV ID) as [V L].
  pose proof (PV PL) as PV'; clear PV.
  split; intros SK.
  - assert (E : texteq type "Error" || texteq type "Warng" = true) by (destruct SK as [ -> | -> ]; reflexivity).
    destruct hc; [destruct PT as [ -> | -> ]|subst pt]; cbn [unpack]; unfold pcan_unpack;
      (match goal with |- context [grp ?c "type"] => change (grp c "type") with type end); rewrite E; reflexivity.
  - assert (E : texteq type "Error" || texteq type "Warng" = false).
    { rewrite !texteq_false by tauto; reflexivity. }
    destruct hc; [destruct PT as [ -> | -> ]|subst pt]; cbn [unpack]; unfold pcan_unpack;
      (match goal with |- context [grp ?c "can_id"] => change (grp c "can_id") with (pcan_id_text ext id); change (grp c "timestamp") with (seconds_text a b);
         change (group c "can_data") with (Some (payload_text pl)); change (grp c "type") with type end);
      rewrite E, V, L, (FA A B), PV'; reflexivity.
Qed.

Theorem C42_pcan_v11 : forall p, pcan_ok p -> List.length (pc_dlc p) = 1%nat ->
  (pcan_skipped p -> parse None (v11_text p) = (Some PV11, Ok None)) /\
  (~ pcan_skipped p -> parse None (v11_text p) =
   (Some PV11, Ok (Some (mkFrame (txt "pcanx") (pc_id p) (pc_ext p) (payload_bytes (pc_payload p)) (payload_remote (pc_payload p))
      TMillis (seconds_text (pc_a p) (pc_b p)))))).
Proof.
  intros p OK SG; destruct (v1_unpack p false PV11 OK eq_refl) as [S N].
  split; intros H; (apply detect_parse; [apply v11_detect; assumption|]); rewrite (pmatch_caps PV11 _ _ (v11_match p OK SG)); auto.
Qed.
Theorem C42_pcan_v12 : forall p, pcan_ok p -> List.length (pc_dlc p) = 1%nat ->
  (pcan_skipped p -> parse None (v12_text p) = (Some PV12, Ok None)) /\
  (~ pcan_skipped p -> parse None (v12_text p) =
   (Some PV12, Ok (Some (mkFrame (txt "pcan" ++ [pc_chan p]) (pc_id p) (pc_ext p) (payload_bytes (pc_payload p)) (payload_remote (pc_payload p))
      TMillis (seconds_text (pc_a p) (pc_b p)))))).
Proof.
  intros p OK SG; destruct (v1_unpack p true PV12 OK (or_introl eq_refl)) as [S N].
  split; intros H; (apply detect_parse; [apply v12_detect; assumption|]); rewrite (pmatch_caps PV12 _ _ (v12_match p OK SG)); auto.
Qed.
Theorem C42_pcan_v13 : forall p, pcan_ok p -> List.length (pc_dlc p) = 1%nat ->
  (pcan_skipped p -> parse None (v13_text p) = (Some PV13, Ok None)) /\
  (~ pcan_skipped p -> parse None (v13_text p) =
   (Some PV13, Ok (Some (mkFrame (txt "pcan" ++ [pc_chan p]) (pc_id p) (pc_ext p) (payload_bytes (pc_payload p)) (payload_remote (pc_payload p))
      TMillis (seconds_text (pc_a p) (pc_b p)))))).
Proof.
  intros p OK SG; destruct (v1_unpack p true PV13 OK (or_intror eq_refl)) as [S N].
  split; intros H; (apply detect_parse; [apply v13_detect; assumption|]); rewrite (pmatch_caps PV13 _ _ (v13_match p OK SG)); auto.
Qed.

(** Versions 2.x: remote requests are rows of type RR. *)
Definition v2_frame (p : pcan) (chan : chars) (l : list (Z * nat)) : dataframe :=
  if list_eq_dec ascii_dec (pc_type p) (txt "RR")
  then mkFrame chan (pc_id p) (pc_ext p) [] true TMillis (seconds_text (pc_a p) (pc_b p))
  else mkFrame chan (pc_id p) (pc_ext p) (map fst l) false TMillis (seconds_text (pc_a p) (pc_b p)).

Lemma v2_unpack p pt c cn l :
  pcan_ok p -> pc_payload p = Bytes l ->
  pt = PV20 /\ cn = txt "pcanx" \/ pt = PV21 /\ cn = txt "pcan" ++ [pc_chan p] ->
  grp c "can_id" = pc_idt p -> grp c "timestamp" = seconds_text (pc_a p) (pc_b p) -> group c "can_data" = Some (data_text l) -> grp c "type" = pc_type p ->
  (pt = PV21 -> grp c "channel" = [pc_chan p]) ->
  (pcan_skipped p -> unpack pt c = Ok None) /\
  (~ pcan_skipped p -> unpack pt c = Ok (Some (v2_frame p cn l))).
Proof.
  intros OK EP PT G1 G2 G3 G4 G5.
  pose proof (pcan_id_value (pc_ext p) (pc_id p)) as IV.
  pose proof (payload_value (pc_payload p)) as PV.
  pose proof (seconds_float (pc_a p) (pc_b p)) as FA.
  unfold pcan_skipped, v2_frame.
  fields p OK; fold_text; subst pl.
  destruct (IV ID) as [V L].
  pose proof (PV PL) as PV'; clear PV; cbn [payload_text payload_bytes payload_remote] in PV'.
  assert (U : unpack pt c = pcan_unpack pt c) by (destruct PT as [[ -> _]|[ -> _]]; reflexivity).
  rewrite U; unfold pcan_unpack; rewrite G1, G2, G3, G4, V, L, (FA A B).
  split; intros SK.
  - assert (E : texteq type "Error" || texteq type "Warng" = true) by (destruct SK as [ -> | -> ]; reflexivity).
    destruct PT as [[ -> _]|[ -> _]]; rewrite E; reflexivity.
  - assert (E : texteq type "Error" || texteq type "Warng" = false).
    { rewrite !texteq_false by tauto; reflexivity. }
    destruct PT as [[ -> -> ]|[ -> -> ]]; rewrite E; unfold texteq at 1; cbv iota;
      try rewrite G5 by reflexivity;
      destruct (list_eq_dec ascii_dec type (txt "RR")); cbn [bind]; try reflexivity; rewrite PV'; reflexivity.
Qed.

Theorem C42_pcan_v20 : forall p l, pcan_ok p -> pc_payload p = Bytes l ->
  (pcan_skipped p -> parse None (v20_text p) = (Some PV20, Ok None)) /\
  (~ pcan_skipped p -> parse None (v20_text p) = (Some PV20, Ok (Some (v2_frame p (txt "pcanx") l)))).
Proof.
  intros p l OK EP.
  pose proof (v20_match p l OK EP) as M.
  destruct (v2_unpack p PV20 [("can_data"%string, data_text l); ("dlc"%string, pc_dlc p); ("rxtx"%string, pc_rxtx p); ("can_id"%string, pc_idt p);
        ("type"%string, pc_type p); ("timestamp"%string, seconds_text (pc_a p) (pc_b p))] (txt "pcanx") l OK EP) as [S N]; auto; [discriminate|].
  split; intros H; (apply detect_parse; [apply (v20_detect p l); assumption|]); rewrite (pmatch_caps PV20 _ _ M); auto.
Qed.
Theorem C42_pcan_v21 : forall p l, pcan_ok p -> pc_payload p = Bytes l ->
  (pcan_skipped p -> parse None (v21_text p) = (Some PV21, Ok None)) /\
  (~ pcan_skipped p -> parse None (v21_text p) = (Some PV21, Ok (Some (v2_frame p (txt "pcan" ++ [pc_chan p]) l)))).
Proof.
  intros p l OK EP.
  destruct (v21_match p l OK EP) as [R' M].
  destruct (v2_unpack p PV21 [("can_data"%string, data_text l); ("dlc"%string, pc_dlc p); ("rxtx"%string, R'); ("can_id"%string, pc_idt p); ("channel"%string, [pc_chan p]);
        ("type"%string, pc_type p); ("timestamp"%string, seconds_text (pc_a p) (pc_b p))] (txt "pcan" ++ [pc_chan p]) l OK EP) as [S N]; auto.
  split; intros H; (apply detect_parse; [apply (v21_detect p l); assumption|]); rewrite (pmatch_caps PV21 _ _ M); auto.
Qed.
