(** Prop_Prune: C49, pruning the names of choices; C52, encoding with pruned names. *)
From Coq Require Import Ascii.
From Verif Require Import Base PyNum Conversion Signal Formats Message DictLemmas NodeProofs CodecSpec CodecThms CSource Regex RegexLemmas Prune Examples.
Local Open Scope list_scope.

(** A text that is a Python identifier made of ASCII characters *)
Definition identifier (x : chars) : Prop := exists c r, x = c :: r /\ letter_ c = true /\ forallb is_word r = true.
(** The end of a text as seen by $ *)
Definition line_end (t : chars) : Prop := t = [] \/ t = [newline].
Definition ends_underscore (p : chars) : Prop := exists q, p = q ++ [underscore].

Section EolMatch.
  Context {X : Type}.
  Implicit Types k : caps -> chars -> option X.
  Lemma eol_inv c s k y : rmatch Eol c s k = Some y -> line_end s /\ k c s = Some y.
  Proof.
    cbn [rmatch]; destruct s as [|x [|z s]]; [split; [left; reflexivity|assumption]| |discriminate].
    destruct (Ascii.eqb_spec x newline) as [->|]; [split; [right; reflexivity|assumption]|discriminate].
  Qed.
  Lemma eol_ok c s k : line_end s -> rmatch Eol c s k = k c s.
  Proof. intros [-> | ->]; reflexivity. Qed.
  Lemma lazy_inv p c s k y :
    rmatch (Star false (Chr p)) c s k = Some y ->
    exists w s', s = w ++ s' /\ forallb p w = true /\ k c s' = Some y /\ forall w1 w2, w = w1 ++ w2 -> w2 <> [] -> k c (w2 ++ s') = None.
  Proof.
    induction s as [|x s IH]; intros E.
    - exists [], []; split; [reflexivity|]; split; [reflexivity|]; split; [exact E|].
      intros w1 w2 W N; destruct w1; [|discriminate]; destruct w2; [contradiction|discriminate].
    - rewrite cstar_cons in E. destruct (k c (x :: s)) as [z|] eqn:K.
      + exists [], (x :: s); split; [reflexivity|]; split; [reflexivity|]; split; [rewrite K; exact E|].
        intros w1 w2 W N; destruct w1; [|discriminate]; destruct w2; [contradiction|discriminate].
      + destruct (p x) eqn:P; [|discriminate]. destruct (IH E) as (w & s' & -> & W & K' & M).
        exists (x :: w), s'; split; [reflexivity|]; split; [cbn [forallb]; rewrite P; exact W|]; split; [exact K'|].
        intros w1 w2 D N. destruct w1 as [|x' w1].
        * cbn [app] in D; subst w2; exact K.
        * injection D as -> D; exact (M w1 w2 D N).
  Qed.
End EolMatch.

Lemma word_newline : is_word newline = false. Proof. reflexivity. Qed.
Lemma letter_word c : letter_ c = true -> is_word c = true.
Proof. unfold letter_, is_word; destruct (is_upper c), (is_lower c), (is_digit c), (Ascii.eqb c underscore); cbn; congruence. Qed.

Lemma valid_name_spec x : valid_name x = true <-> exists y t, x = y ++ t /\ identifier y /\ line_end t.
Proof.
  unfold valid_name, re_match, valid_name_re. destruct x as [|a x].
  - cbn; split; [discriminate|]. intros (y & t & E & (c & r & -> & _) & _); discriminate.
  - rewrite seq_chr. destruct (letter_ a) eqn:A.
    + change (rmatch (Seq (Star true (Chr is_word)) Eol) [] x (fun c _ => Some c)) with
        (rmatch (Star true (Chr is_word)) [] x (fun c s => rmatch Eol c s (fun c _ => Some c))).
      split.
      * destruct (rmatch (Star true (Chr is_word)) [] x _) as [c|] eqn:M; [|discriminate]. intros _.
        destruct (cstar_inv _ _ _ _ _ _ M) as (w & s' & -> & W & K).
        destruct (eol_inv _ _ _ _ K) as [L _]. exists (a :: w), s'; split; [reflexivity|]; split; [|exact L].
        exists a, w; split; [reflexivity|]; split; assumption.
      * intros (y & t & E & (c & r & -> & C & R) & L). injection E as <- ->.
        destruct (rmatch (Star true (Chr is_word)) [] (r ++ t) _) eqn:M; [reflexivity|exfalso].
        refine (cstar_some true is_word [] r t (fun c s => rmatch Eol c s (fun c _ => Some c)) R _ M).
        rewrite eol_ok by exact L; discriminate.
    + split; [discriminate|]. intros (y & t & E & (c & r & -> & C & R) & L). injection E as -> _; congruence.
Qed.

(** *** One choice *)

(** [name] is [p], an underscore, letters and underscores [v], and the end of the text. *)
Definition suffix_split (name p v t : chars) : Prop :=
  name = p ++ underscore :: v ++ t /\ forallb is_word p = true /\ v <> [] /\ forallb letter_ v = true /\ line_end t.

Definition tail_re : re := Seq (Group "1" (Plus true (Chr letter_))) Eol.
Lemma tail_inv s (c : caps) : rmatch tail_re [] s (fun c _ => Some c) = Some c ->
  exists v t, s = v ++ t /\ v <> [] /\ forallb letter_ v = true /\ line_end t /\ c = [("1"%string, v)].
Proof.
  unfold tail_re, Plus. destruct s as [|x s]; [discriminate|]. intros M.
  change (rmatch (Seq (Group "1" (Seq (Chr letter_) (Star true (Chr letter_)))) Eol) [] (x :: s) (fun c _ => Some c)) with
    (if letter_ x then rmatch (Star true (Chr letter_)) [] s (fun c' s' => rmatch Eol (("1"%string, consumed (x :: s) s') :: c') s' (fun c _ => Some c)) else None) in M.
  destruct (letter_ x) eqn:LX; [|discriminate].
  destruct (cstar_inv _ _ _ _ _ _ M) as (w & s' & -> & W & K).
  destruct (eol_inv _ _ _ _ K) as [L K']. injection K' as <-.
  exists (x :: w), s'; split; [reflexivity|]; split; [discriminate|]; split; [cbn [forallb]; rewrite LX; exact W|]; split; [exact L|].
  change (x :: w ++ s') with ((x :: w) ++ s'); rewrite consumed_app; reflexivity.
Qed.
Lemma tail_some v t : v <> [] -> forallb letter_ v = true -> line_end t -> rmatch tail_re [] (v ++ t) (fun c _ => Some c) <> None.
Proof.
  intros N V L. destruct v as [|x v]; [contradiction|]. cbn [forallb] in V; apply andb_true_iff in V; destruct V as [LX V].
  unfold tail_re, Plus.
  change (rmatch (Seq (Group "1" (Seq (Chr letter_) (Star true (Chr letter_)))) Eol) [] ((x :: v) ++ t) (fun c _ => Some c)) with
    (if letter_ x then rmatch (Star true (Chr letter_)) [] (v ++ t) (fun c' s' => rmatch Eol (("1"%string, consumed (x :: v ++ t) s') :: c') s' (fun c _ => Some c)) else None).
  rewrite LX. apply cstar_some; [exact V|]. rewrite eol_ok by exact L; discriminate.
Qed.

Lemma single_cases name :
  (exists p v t, suffix_split name p v t /\ prune_single name = v /\ forall p' v' t', suffix_split name p' v' t' -> (List.length p <= List.length p')%nat) \/
  ((forall p v t, ~ suffix_split name p v t) /\ prune_single name = name).
Proof.
  unfold prune_single, re_match, single_re.
  change (rmatch (Seq (Star false (Chr is_word)) (Seq (Chr (Ascii.eqb underscore)) (Seq (Group "1" (Plus true (Chr letter_))) Eol))) [] name (fun c _ => Some c)) with
    (rmatch (Star false (Chr is_word)) [] name (fun c s => rmatch (Seq (Chr (Ascii.eqb underscore)) tail_re) c s (fun c _ => Some c))).
  assert (Yes : forall p v t, suffix_split name p v t -> rmatch (Seq (Chr (Ascii.eqb underscore)) tail_re) [] (underscore :: v ++ t) (fun c _ => Some c) <> None).
  { intros p v t (_ & _ & N & V & L). rewrite seq_chr. change (Ascii.eqb underscore underscore) with true. apply tail_some; assumption. }
  destruct (rmatch (Star false (Chr is_word)) [] name _) as [c|] eqn:M.
  - left. destruct (lazy_inv _ _ _ _ _ M) as (p & s' & E & P & K & Min).
    destruct s' as [|u s']; [discriminate|]. rewrite seq_chr in K.
    destruct (Ascii.eqb_spec underscore u) as [<-|]; [|discriminate].
    destruct (tail_inv _ _ K) as (v & t & -> & N & V & L & ->).
    exists p, v, t. split; [split; [exact E|]; split; [exact P|]; split; [exact N|]; split; assumption|].
    split; [reflexivity|]. intros p' v' t' D. destruct (le_lt_dec (List.length p) (List.length p')) as [|Lt]; [assumption|exfalso].
    pose proof (Yes _ _ _ D) as Y. destruct D as (E' & _ & _ & _ & _).
    assert (Sp : exists w2, p = p' ++ w2 /\ w2 <> [] /\ underscore :: v' ++ t' = w2 ++ underscore :: v ++ t).
    { rewrite E in E'. pose proof (f_equal (firstn (List.length p')) E') as F.
      rewrite (firstn_app _ p'), Nat.sub_diag, firstn_O, app_nil_r, firstn_all in F.
      rewrite firstn_app in F. replace (List.length p' - List.length p)%nat with O in F by lia. rewrite firstn_O, app_nil_r in F.
      exists (skipn (List.length p') p). split; [rewrite <- F at 1; symmetry; apply firstn_skipn|]. split.
      - intros Z; apply (f_equal (@List.length ascii)) in Z; rewrite skipn_length in Z; cbn in Z; lia.
      - rewrite <- (firstn_skipn (List.length p') p), F, <- app_assoc in E'. apply app_inv_head in E'. symmetry; exact E'. }
    destruct Sp as (w2 & -> & NW & Ew). rewrite Ew in Y. exact (Y (Min p' w2 eq_refl NW)).
  - right; split; [|reflexivity]. intros p v t D. pose proof (Yes _ _ _ D) as Y. destruct D as (-> & P & _).
    refine (cstar_some false is_word [] p (underscore :: v ++ t) _ P _ M). exact Y.
Qed.

(** *** Several choices *)
Lemma common_prefix2_spec a b : (exists a', a = common_prefix2 a b ++ a') /\ (exists b', b = common_prefix2 a b ++ b') /\
  forall q a' b', a = q ++ a' -> b = q ++ b' -> exists r, common_prefix2 a b = q ++ r.
Proof.
  revert b; induction a as [|x a IH]; intros b.
  - split; [exists []; reflexivity|]; split; [exists b; reflexivity|]. intros q a' b' E _; destruct q; [exists []; reflexivity|discriminate].
  - destruct b as [|y b]; [cbn|].
    + split; [exists (x :: a); reflexivity|]; split; [exists []; reflexivity|]. intros q a' b' _ E; destruct q; [exists []; reflexivity|discriminate].
    + cbn [common_prefix2]. destruct (Ascii.eqb_spec x y) as [<-|N].
      * destruct (IH b) as ((a1 & E1) & (b1 & E2) & M). split; [exists a1; cbn [app]; rewrite <- E1; reflexivity|]; split; [exists b1; cbn [app]; rewrite <- E2; reflexivity|].
        intros q a' b' EA EB. destruct q as [|z q]; [eexists; reflexivity|]. injection EA as <- EA; injection EB as EB.
        destruct (M q a' b' EA EB) as (r & ->). exists r; reflexivity.
      * split; [eexists; reflexivity|]; split; [eexists; reflexivity|]. intros q a' b' EA EB. destruct q as [|z q]; [exists []; reflexivity|].
        injection EA as <- _; injection EB as <- _; contradiction.
Qed.
Lemma common_prefix_spec l : (forall x, In x l -> exists x', x = common_prefix l ++ x') /\
  (l <> [] -> forall q, (forall x, In x l -> exists x', x = q ++ x') -> exists r, common_prefix l = q ++ r).
Proof.
  induction l as [|a l IH]; [split; [intros x []|contradiction]|]. destruct l as [|b l].
  - cbn. split; [intros x [<-|[]]; exists []; symmetry; apply app_nil_r|]. intros _ q H; apply H; left; reflexivity.
  - change (common_prefix (a :: b :: l)) with (common_prefix2 a (common_prefix (b :: l))).
    destruct IH as [I1 I2]. destruct (common_prefix2_spec a (common_prefix (b :: l))) as (A & (r & B) & M). split.
    + intros x [<-|I]; [exact A|]. destruct (I1 x I) as (x' & ->). exists (r ++ x'); rewrite app_assoc, <- B; reflexivity.
    + intros _ q H. destruct (H a (or_introl eq_refl)) as (a' & EA). destruct (I2 ltac:(discriminate) q) as (r' & ER).
      * intros x I; apply H; right; exact I.
      * exact (M q a' r' EA ER).
Qed.

Lemma before_last_spec l : match before_last l with
  | Some p => exists r, l = p ++ underscore :: r /\ ~ In underscore r
  | None => ~ In underscore l
  end.
Proof.
  induction l as [|x l IH]; cbn [before_last]; [intros []|].
  destruct (before_last l) as [p|].
  - destruct IH as (r & -> & N). exists r; split; [reflexivity|exact N].
  - destruct (Ascii.eqb_spec x underscore) as [->|N]; [exists l; split; [reflexivity|exact IH]|].
    intros [E|I]; [congruence|exact (IH I)].
Qed.

Lemma split_nonempty l : split l <> [].
Proof. destruct l as [|x l]; [discriminate|]. cbn [split]; destruct (Ascii.eqb x underscore); [discriminate|destruct (split l); discriminate]. Qed.
Lemma join_cons a l : l <> [] -> join (a :: l) = a ++ underscore :: join l.
Proof. destruct l; [contradiction|reflexivity]. Qed.
Lemma join_split l : join (split l) = l.
Proof.
  induction l as [|x l IH]; [reflexivity|]. cbn [split]. destruct (Ascii.eqb_spec x underscore) as [->|N].
  - rewrite join_cons by apply split_nonempty. rewrite IH; reflexivity.
  - pose proof (split_nonempty l) as NE. destruct (split l) as [|w ws]; [contradiction|].
    destruct ws as [|w' ws].
    + cbn [join] in IH |- *; rewrite IH; reflexivity.
    + rewrite join_cons in IH |- * by discriminate. cbn [app]; rewrite IH; reflexivity.
Qed.
Lemma split_app a b : split (a ++ underscore :: b) = split a ++ split b.
Proof.
  induction a as [|x a IH]; [reflexivity|]. cbn [split app]. destruct (Ascii.eqb x underscore); rewrite IH; [reflexivity|].
  pose proof (split_nonempty a) as NE; destruct (split a); [contradiction|reflexivity].
Qed.
Lemma join_app l m : l <> [] -> m <> [] -> join (l ++ m) = join l ++ underscore :: join m.
Proof.
  intros NL NM; induction l as [|a l IH]; [contradiction|]. destruct l as [|b l].
  - cbn [app]; rewrite join_cons by exact NM; reflexivity.
  - change ((a :: b :: l) ++ m) with (a :: (b :: l) ++ m). rewrite join_cons by discriminate.
    rewrite IH by discriminate. rewrite (join_cons a (b :: l)) by discriminate. rewrite <- app_assoc; reflexivity.
Qed.
(** The candidates of the loop are the beginnings of the full prefix that end before an underscore. *)
Lemma segment_prefix fp i : (0 < i <= List.length (split fp))%nat ->
  exists r, fp ++ [underscore] = (join (firstn i (split fp)) ++ [underscore]) ++ r.
Proof.
  intros L. destruct (Nat.eq_dec i (List.length (split fp))) as [->|N].
  - rewrite firstn_all, join_split. exists []; rewrite app_nil_r; reflexivity.
  - exists (join (skipn i (split fp)) ++ [underscore]).
    rewrite <- (join_split fp) at 1. rewrite <- (firstn_skipn i (split fp)) at 1.
    rewrite join_app; [rewrite <- !app_assoc; reflexivity| |].
    + intros E; apply (f_equal (@List.length _)) in E; rewrite firstn_length in E; cbn in E; lia.
    + intros E; apply (f_equal (@List.length _)) in E; rewrite skipn_length in E; cbn in E; lia.
Qed.
Lemma segment_complete fp q r : fp ++ [underscore] = q ++ underscore :: r ->
  exists i, (0 < i <= List.length (split fp))%nat /\ q = join (firstn i (split fp)).
Proof.
  intros E. destruct (exists_last (l := underscore :: r) ltac:(discriminate)) as (r' & u & Er).
  rewrite Er, app_assoc in E. apply app_inj_tail in E; destruct E as [-> <-].
  destruct r' as [|v r'].
  - rewrite app_nil_r. exists (List.length (split q)). rewrite firstn_all, join_split.
    split; [|reflexivity]. pose proof (split_nonempty q); destruct (split q); [contradiction|cbn; lia].
  - injection Er as <- _. exists (List.length (split q)). rewrite split_app, app_length, firstn_app, Nat.sub_diag, firstn_O, app_nil_r, firstn_all, join_split.
    split; [|reflexivity]. pose proof (split_nonempty q); destruct (split q); [contradiction|cbn; lia].
Qed.

Lemma strip_length_spec segs names i :
  match strip_length segs names i with
  | Some n => exists j, (0 < j <= i)%nat /\ n = List.length (join (firstn j segs) ++ [underscore]) /\
                forallb (fun x => valid_name (skipn n x)) names = true /\
                forall j', (j < j' <= i)%nat -> forallb (fun x => valid_name (skipn (List.length (join (firstn j' segs) ++ [underscore])) x)) names = false
  | None => forall j, (0 < j <= i)%nat -> forallb (fun x => valid_name (skipn (List.length (join (firstn j segs) ++ [underscore])) x)) names = false
  end.
Proof.
  induction i as [|i IH]; cbn [strip_length]; [intros j L; lia|].
  match goal with |- context [if ?b then _ else _] => destruct b eqn:F end.
  - exists (S i); split; [lia|]; split; [reflexivity|]; split; [exact F|]. intros j' L; lia.
  - destruct (strip_length segs names i) as [n|].
    + destruct IH as (j & L & E & V & M). exists j; split; [lia|]; split; [exact E|]; split; [exact V|].
      intros j' L'. destruct (Nat.eq_dec j' (S i)) as [->|N]; [exact F|apply M; lia].
    + intros j L. destruct (Nat.eq_dec j (S i)) as [->|N]; [exact F|apply IH; lia].
Qed.

Lemma skipn_app_exact {A} (p x : list A) : skipn (List.length p) (p ++ x) = x.
Proof. rewrite skipn_app, skipn_all, Nat.sub_diag; reflexivity. Qed.
Lemma map_app_skipn (p : chars) names : (forall x, In x names -> exists x', x = p ++ x') -> names = map (app p) (map (skipn (List.length p)) names).
Proof.
  intros H; rewrite map_map. rewrite <- (map_id names) at 1. apply map_ext_in. intros x I.
  destruct (H x I) as (x' & ->). rewrite skipn_app_exact; reflexivity.
Qed.

(** C49: with two or more choices a common prefix is removed from all names.  It is empty or ends in an underscore
    and leaves identifiers (up to a final newline), and it is the longest such prefix, unless that is a lone underscore. *)
Theorem C49_common_prefix : forall names, (2 <= List.length names)%nat -> exists p,
  names = map (app p) (prune_names names) /\
  (p = [] \/ ends_underscore p /\ forall x, In x (prune_names names) -> exists y t, x = y ++ t /\ identifier y /\ line_end t) /\
  (forall q rest, ends_underscore q -> q <> [underscore] -> names = map (app q) rest -> (forall x, In x rest -> identifier x) ->
     (List.length q <= List.length p)%nat).
Proof.
  intros names L.
  assert (PN : prune_names names = match before_last (common_prefix names) with
      | None => names
      | Some [] => names
      | Some full_prefix => match strip_length (split full_prefix) names (List.length (split full_prefix)) with None => names | Some n => map (skipn n) names end
      end).
  { destruct names as [|a [|b names]]; [cbn in L; lia|cbn in L; lia|reflexivity]. }
  assert (NE : names <> []) by (destruct names; [cbn in L; lia|discriminate]).
  destruct (common_prefix_spec names) as [C1 C2]. specialize (C2 NE).
  (* a longer prefix would have been found *)
  assert (Q : forall q rest, ends_underscore q -> names = map (app q) rest ->
            exists fp r, before_last (common_prefix names) = Some fp /\ fp ++ [underscore] = q ++ r).
  { intros q rest (q' & ->) E. destruct (C2 (q' ++ [underscore])) as (r & ER).
    { rewrite E; intros x I; apply in_map_iff in I; destruct I as (y & <- & _); exists y; reflexivity. }
    pose proof (before_last_spec (common_prefix names)) as B. destruct (before_last (common_prefix names)) as [fp|].
    - destruct B as (r' & B & NU). exists fp. rewrite B in ER.
      assert (LE : (List.length (q' ++ [underscore]) <= List.length (fp ++ [underscore]))%nat).
      { destruct (le_lt_dec (List.length (q' ++ [underscore])) (List.length (fp ++ [underscore]))) as [|Lt]; [assumption|exfalso; apply NU].
        apply (f_equal (skipn (List.length (fp ++ [underscore])))) in ER.
        replace (fp ++ underscore :: r') with ((fp ++ [underscore]) ++ r') in ER by (rewrite <- app_assoc; reflexivity).
        rewrite skipn_app_exact in ER. rewrite ER, <- app_assoc, skipn_app.
        rewrite app_length in Lt; rewrite (app_length q') in Lt; cbn [List.length] in Lt.
        replace (List.length (fp ++ [underscore]) - List.length q')%nat with O by (rewrite app_length; cbn; lia).
        cbn [skipn app]. apply in_or_app; right; left; reflexivity. }
      exists (skipn (List.length (q' ++ [underscore])) (fp ++ [underscore])); split; [reflexivity|].
      apply (f_equal (firstn (List.length (q' ++ [underscore])))) in ER.
      replace (fp ++ underscore :: r') with ((fp ++ [underscore]) ++ r') in ER by (rewrite <- app_assoc; reflexivity).
      rewrite (firstn_app _ (q' ++ [underscore])), Nat.sub_diag, firstn_O, app_nil_r, firstn_all in ER.
      rewrite firstn_app in ER. replace (List.length (q' ++ [underscore]) - List.length (fp ++ [underscore]))%nat with O in ER by lia.
      rewrite firstn_O, app_nil_r in ER. rewrite <- ER at 1. symmetry; apply firstn_skipn.
    - exfalso; apply B; rewrite ER, <- app_assoc; apply in_or_app; right; left; reflexivity. }
  assert (Id : forall l : list chars, l = map (app []) l) by (intros l; symmetry; apply map_id).
  rewrite PN; clear PN. pose proof (before_last_spec (common_prefix names)) as B.
  destruct (before_last (common_prefix names)) as [fp|].
  2:{ exists []; split; [apply Id|]; split; [left; reflexivity|]. intros q rest EU _ E _. destruct (Q q rest EU E) as (fp & r & H & _); discriminate. }
  destruct fp as [|x0 fp0] eqn:FP.
  { exists []; split; [apply Id|]; split; [left; reflexivity|]. intros q rest EU NQ E _. destruct (Q q rest EU E) as (fp' & r & H & H2).
    injection H as <-. destruct EU as (q' & ->). destruct q' as [|z q']; [contradiction NQ; reflexivity|]. exfalso.
    cbn [app] in H2. injection H2 as _ H2. destruct q'; discriminate. }
  rewrite <- FP in *; clear x0 fp0 FP.
  destruct B as (rest0 & B & NU).
  pose proof (strip_length_spec (split fp) names (List.length (split fp))) as S.
  assert (Max : forall q rest j, ends_underscore q -> names = map (app q) rest -> (forall x, In x rest -> identifier x) ->
     (forall j', (j < j' <= List.length (split fp))%nat -> forallb (fun x => valid_name (skipn (List.length (join (firstn j' (split fp)) ++ [underscore])) x)) names = false) ->
     exists i, (0 < i <= j)%nat /\ (i <= List.length (split fp))%nat /\ q = join (firstn i (split fp)) ++ [underscore]).
  { intros q rest j EU E I F. destruct (Q q rest EU E) as (fp' & r & H & H2). injection H as <-. destruct EU as (q' & ->).
    rewrite <- app_assoc in H2. destruct (segment_complete fp q' r H2) as (i & Li & ->).
    exists i. split; [|split; [lia|reflexivity]]. split; [lia|]. destruct (le_lt_dec i j) as [|Lt]; [assumption|exfalso].
    specialize (F i ltac:(lia)). assert (T : forallb (fun x => valid_name (skipn (List.length (join (firstn i (split fp)) ++ [underscore])) x)) names = true).
    { apply forallb_forall. intros x Ix; rewrite E in Ix; apply in_map_iff in Ix; destruct Ix as (y & <- & Iy).
      rewrite skipn_app_exact. apply valid_name_spec. exists y, []; split; [symmetry; apply app_nil_r|]; split; [exact (I y Iy)|left; reflexivity]. }
    congruence. }
  destruct (strip_length (split fp) names (List.length (split fp))) as [n|].
  - destruct S as (j & Lj & En & V & M).
    destruct (segment_prefix fp j Lj) as (r & Er).
    set (p := join (firstn j (split fp)) ++ [underscore]) in *.
    exists p. subst n. split; [|split].
    + apply map_app_skipn. intros x I. destruct (C1 x I) as (x' & ->). rewrite B.
      replace (fp ++ underscore :: rest0) with ((fp ++ [underscore]) ++ rest0) by (rewrite <- app_assoc; reflexivity).
      rewrite Er, <- !app_assoc. eexists; reflexivity.
    + right; split; [exists (join (firstn j (split fp))); reflexivity|].
      intros x I; apply in_map_iff in I; destruct I as (y & <- & I). rewrite forallb_forall in V. apply valid_name_spec. exact (V y I).
    + intros q rest EU _ E I. destruct (Max q rest j EU E I M) as (i & Li & Li2 & ->).
      unfold p. rewrite !app_length. apply Nat.add_le_mono_r.
      (* shorter lists of segments give shorter prefixes *)
      destruct (Nat.eq_dec i j) as [->|Nij]; [reflexivity|].
      rewrite <- (firstn_skipn i (firstn j (split fp))), firstn_firstn, Nat.min_l by lia.
      rewrite join_app; [rewrite app_length; lia| |].
      * intros X; apply (f_equal (@List.length _)) in X; rewrite firstn_length in X; cbn in X; lia.
      * intros X; apply (f_equal (@List.length _)) in X; rewrite skipn_length, firstn_length in X; cbn in X; lia.
  - exists []; split; [apply Id|]; split; [left; reflexivity|]. intros q rest EU _ E I.
    destruct (Max q rest O EU E I) as (i & Li & _ & _); [|lia]. intros j' Lj'; apply S; lia.
Qed.

(** C49: a single choice keeps the longest end of its name that follows an underscore and has no digit;
    without such an end the name stays. *)
Theorem C49_single : forall name,
  (exists p v t, suffix_split name p v t /\ prune_names [name] = [v] /\
     forall p' v' t', suffix_split name p' v' t' -> (List.length p <= List.length p')%nat) \/
  ((forall p v t, ~ suffix_split name p v t) /\ prune_names [name] = [name]).
Proof.
  intros name. cbn [prune_names]. destruct (single_cases name) as [(p & v & t & D & E & M)|[N E]].
  - left; exists p, v, t; rewrite E; split; [exact D|]; split; [reflexivity|exact M].
  - right; rewrite E; split; [exact N|reflexivity].
Qed.

(** *** Tables *)
Lemma prune_names_length names : List.length (prune_names names) = List.length names.
Proof.
  unfold prune_names. destruct names as [|a [|b names]]; [reflexivity|reflexivity|].
  set (l := a :: b :: names). destruct (before_last (common_prefix l)) as [[|x fp]|]; [reflexivity| |reflexivity].
  destruct (strip_length _ _ _); [apply map_length|reflexivity].
Qed.
Lemma rename_str c n : choice_str (rename c n) = string_of_list_ascii n.
Proof. destruct c; reflexivity. Qed.
Lemma prune_choices_names ch : names_of (prune_choices ch) = prune_names (names_of ch).
Proof.
  unfold names_of at 1, prune_choices. rewrite map_map. cbn [snd].
  rewrite (map_ext _ snd) by (intros p; rewrite rename_str; apply list_ascii_of_string_of_list_ascii).
  assert (G : forall (A B : Type) (l : list A) (m : list B), List.length l = List.length m -> map snd (combine l m) = m).
  { intros A B l; induction l as [|a l IH]; intros [|b m] E; try discriminate; [reflexivity|]. cbn; rewrite IH by (injection E as E; exact E); reflexivity. }
  apply G. rewrite prune_names_length. unfold names_of; rewrite map_length; reflexivity.
Qed.

(** C49: the raw values and their order stay, also the value inside a named value. *)
Theorem C49_values_unchanged : forall ch,
  map fst (prune_choices ch) = map fst ch /\
  forall i z c, nth_error (prune_choices ch) i = Some (z, c) -> exists c0, nth_error ch i = Some (z, c0) /\
    match c0, c with ChStr _, ChStr _ => True | ChNamed v _, ChNamed v' _ => v = v' | _, _ => False end.
Proof.
  intros ch. unfold prune_choices.
  assert (L : List.length ch = List.length (prune_names (names_of ch))) by (rewrite prune_names_length; unfold names_of; rewrite map_length; reflexivity).
  revert L; generalize (prune_names (names_of ch)) as ns; induction ch as [|[z c] ch IH]; intros [|n ns] L; try discriminate L.
  - split; [reflexivity|]. intros i z c E; destruct i; discriminate.
  - injection L as L. destruct (IH ns L) as [I1 I2]. cbn [combine map fst snd]. split; [rewrite I1; reflexivity|].
    intros [|i] z' c' E; cbn [nth_error] in E |- *.
    + injection E as <- <-. exists c; split; [reflexivity|]. destruct c; cbn; auto.
    + exact (I2 i z' c' E).
Qed.

(** C49: distinct names stay distinct. *)
Theorem C49_distinct : forall ch, NoDup (names_of ch) -> NoDup (names_of (prune_choices ch)).
Proof.
  intros ch N. rewrite prune_choices_names. set (names := names_of ch) in *. clearbody names.
  destruct (le_lt_dec 2 (List.length names)) as [L|L].
  - destruct (C49_common_prefix names L) as (p & E & _). rewrite E in N. exact (NoDup_map_inv _ _ N).
  - destruct names as [|a [|b names]]; [constructor|constructor; [intros []|constructor]|cbn in L; lia].
Qed.

(** C49: a pruned signal decodes a raw value to the pruned name of the same entry, other values as before. *)
Theorem C49_decode : forall scale offset ch inv fl inner raw z,
  py_int raw = Ok z -> 
  raw_to_scaled (prune_conversion (CNamed scale offset ch inv fl inner)) raw true =
  match find (fun kc => fst kc =? z) (prune_choices ch) with
  | Some (_, c) => Ok (choice_value c)
  | None => raw_to_scaled (CNamed scale offset ch inv fl inner) raw true
  end.
Proof.
  intros scale offset ch inv fl inner raw z E. cbn [prune_conversion raw_to_scaled]. rewrite E; cbn [bind].
  assert (G : forall d : choices_t, zget d z = match find (fun kc => fst kc =? z) d with Some (_, c) => Some c | None => None end).
  { induction d as [|[k c] d IH]; [reflexivity|]. cbn [dget find fst]. destruct (k =? z); [reflexivity|exact IH]. }
  rewrite G. destruct (find _ (prune_choices ch)) as [[k c]|] eqn:F; [reflexivity|].
  assert (N : zget ch z = None).
  { apply (get_none _ zspec). rewrite <- (proj1 (C49_values_unchanged ch)). intros I; apply in_map_iff in I; destruct I as ((k & c) & E1 & I).
    pose proof (find_none _ _ F _ I) as X. cbn in X, E1. rewrite E1, Z.eqb_refl in X; discriminate. }
  rewrite N; reflexivity.
Qed.

(** *** C52 *)

(** C52 refuted: encoding with a name uses the names before pruning, so a pruned name that was no name before
    is a KeyError. *)
Theorem C52_new_name_refuted : forall scale offset ch fl c x,
  factory scale offset (Some ch) fl = Ok c -> ~ In (list_ascii_of_string x) (names_of ch) ->
  choice_to_number (prune_conversion c) x = Err KeyError.
Proof.
  intros scale offset ch fl c x F N. unfold factory in F.
  destruct (num_factory scale offset fl) as [inner|]; [|discriminate]. apply Ok_inj in F; subst c.
  cbn [prune_conversion choice_to_number].
  assert (G : sget (inverse_choices ch) x = None).
  { rewrite label_number_spec. destruct (label_number ch x) as [z|] eqn:E; [exfalso|reflexivity].
    apply N. unfold names_of. clear - E. induction ch as [|[k c] ch IH]; [discriminate|]. cbn [label_number map snd] in E |- *.
    destruct (label_number ch x) as [z'|]; [right; apply IH; injection E as ->; reflexivity|].
    destruct (String.eqb_spec (choice_str c) x) as [<-|]; [left; reflexivity|discriminate]. }
  unfold sget_exn; rewrite G; reflexivity.
Qed.

(** Names are encoded with the number they had before pruning. *)
Lemma old_names_encoded : forall c x, choice_to_number (prune_conversion c) x = choice_to_number c x.
Proof. intros c x; destruct c; reflexivity. Qed.

(** *** Examples *)
Definition chars_of (s : string) : chars := list_ascii_of_string s.
Definition speed_table : choices_t := [(0, ChNamed 0 "Sig_Speed_Low"); (1, ChNamed 1 "Sig_Speed_High"); (2, ChStr "Sig_Speed_2")]%string.
Example ex_prune : prune_choices speed_table = [(0, ChNamed 0 "Speed_Low"); (1, ChNamed 1 "Speed_High"); (2, ChStr "Speed_2")]%string.
Proof. vm_compute; reflexivity. Qed.
Example ex_prune_full : prune_choices (firstn 2 speed_table) = [(0, ChNamed 0 "Low"); (1, ChNamed 1 "High")]%string.
Proof. vm_compute; reflexivity. Qed.
Example ex_prune_single : prune_names [chars_of "MyMessage_MySignal_Uint32_Not_Available"] = [chars_of "Not_Available"].
Proof. vm_compute; reflexivity. Qed.
Example ex_distinct : NoDup (names_of speed_table).
Proof.
  assert (N : NoDup (map (fun kc => choice_str (snd kc)) speed_table)) by (apply names_nodup; vm_compute; reflexivity).
  unfold names_of. rewrite <- (map_map (fun kc => choice_str (snd kc)) list_ascii_of_string).
  revert N; generalize (map (fun kc : Z * choice => choice_str (snd kc)) speed_table) as l; induction l as [|a l IH]; intros N; [constructor|].
  inversion N as [|? ? N1 N2]; subst. cbn [map]; constructor; [|exact (IH N2)]. intros I; apply in_map_iff in I; destruct I as (b & E & I).
  apply (f_equal string_of_list_ascii) in E; rewrite !string_of_list_ascii_of_string in E; congruence.
Qed.
(** C49: the documented longest prefix is not removed when it is a lone underscore. *)
Theorem C49_underscore_refuted :
  let names := [chars_of "_On"; chars_of "_Off"] in
  names = map (app [underscore]) [chars_of "On"; chars_of "Off"] /\
  (forall x, In x [chars_of "On"; chars_of "Off"] -> identifier x) /\ prune_names names = names.
Proof.
  cbn zeta; split; [reflexivity|]; split; [|vm_compute; reflexivity].
  intros x [<-|[<-|[]]]; [exists "O"%char, (chars_of "n")|exists "O"%char, (chars_of "ff")]; repeat split.
Qed.
(** C49: pruning a second time may shorten a single name further. *)
Theorem C49_twice_refuted : exists name, prune_names (prune_names [name]) <> prune_names [name].
Proof. exists (chars_of "A_B_C"); intros E; vm_compute in E; discriminate E. Qed.

Definition table_of (ch : choices_t) : message :=
  match mk_message 5 false "M" 1 0 [prune_signal_choices (sig "S" 0 8 false false (conv_of (NInt 1) (NInt 0) (Some ch) false))] true SortDefault with
  | Ok m => m
  | Err _ => mkMessage 0 false "" 0 0 [] false (Codec [] (mkFormats [] [] 0) []) (STree [])
  end.
(** C52 refuted: decoding with a pruned database gives a value that encoding refuses, as a named value
    under the strict check and as text always. *)
Theorem C52_decoded_name_refuted :
  let m := table_of (firstn 2 speed_table) in
  decode m [1] true true false false = Ok [("S", VNamed 1 "High")]%string /\
  encode m [("S", VNamed 1 "High")]%string true false true = Err KeyError /\
  encode m [("S", VStr "High")]%string true false false = Err KeyError.
Proof. cbn zeta; split; [|split]; vm_compute; reflexivity. Qed.
(** C52 refuted: a pruned name may be encoded as the number of another choice. *)
Definition shifted_table : choices_t := [(0, ChNamed 0 "A_A_B"); (1, ChNamed 1 "A_B")]%string.
Theorem C52_other_choice_refuted :
  let m := table_of shifted_table in
  decode m [0] true true false false = Ok [("S", VNamed 0 "A_B")]%string /\
  encode m [("S", VStr "A_B")]%string true false true = Ok [1].
Proof. cbn zeta; split; vm_compute; reflexivity. Qed.
