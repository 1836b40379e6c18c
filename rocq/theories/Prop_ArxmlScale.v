(** Prop_ArxmlScale: property C73, the scaling, the named values, the unit and the initial value of ARXML signals. *)
From Coq Require Import Ascii Floats.SpecFloat Reals.
From Flocq Require Import Core IEEE754.BinarySingleNaN.
From Verif Require Import Base PyNum Conversion Signal Message DictLemmas CSource CNames Regex DbcToken DbcTables Logreader DecodeCmd Xml Arxml ArxmlLoad Prop_Arxml ArxmlReach Prop_ArxmlNum Prop_ArxmlPdu Prop_ArxmlMsg Prop_Conv FloatReal ConvReal.
Local Open Scope string_scope.
Local Open Scope Z_scope.
Local Open Scope list_scope.

(** ** What a file says about the meaning of a raw value *)
(** A straight line on an interval, and the named values in the order of the file *)
Record meaning := mkMeaning { me_min : option num; me_max : option num; me_factor : num; me_offset : num; me_names : option (list (num * chars)) }.
Definition one : num := NFlt (S754_finite false 4503599627370496 (-52)).
Definition zero : num := NFlt (S754_zero false).
Definition as_is : meaning := mkMeaning None None one zero None.
Inductive piece := Name (v : num) (t : chars) | Line (mn mx : option num) (f o : num) | Neither.

Section Spec.
  Context (from_text : chars -> option spec_float) (from_hex : chars -> result spec_float) (ns : chars) (root : xml) (v4 : bool).
  Notation reach := (reach ns root).
  Notation only := (only ns root).
  Notation nothing := (nothing ns root).
  Notation text_at := (text_at ns root).
  Notation int_at := (int_at from_text from_hex ns root).
  Notation is_tag t n := (is_tag ns (txt t) (snd n)).
  Notation number := (number from_text from_hex).
  Notation either := (either v4).

  (** The elements of a name below [n], or referred to by that name, in the order of the file *)
  Definition row (n : node) (name : string) (l : list node) : Prop :=
    exists ls : list (option node), List.length ls = List.length (x_kids (snd n)) /\ l = flat_map (fun o => match o with Some x => [x] | None => [] end) ls /\
      forall i c, is_kid n i c ->
        nth_error ls i = Some (Some c) /\ is_tag name c \/
        (exists m, nth_error ls i = Some (Some m) /\ is_tag (name ++ "-REF") c /\ refers ns root n c m) \/
        nth_error ls i = Some None /\ ~ is_tag name c /\ ~ is_tag (name ++ "-REF") c.
  Definition listed (n : node) (names : list string) (name : string) (l : list node) : Prop :=
    nothing n names /\ l = [] \/ exists k, only n names k /\ row k name l.
  Definition num_at (n : node) (names : list string) (x : num) : Prop := exists t, text_at n names t /\ number t = Ok x.
  Definition opt_num_at (n : node) (names : list string) (o : option num) : Prop :=
    match o with Some x => num_at n names x | None => nothing n names end.

  (** The line y = factor * x + offset of a COMPU-SCALE *)
  Definition coefficients (sc : node) (f o : num) : Prop :=
    nothing sc ["COMPU-RATIONAL-COEFFS"] /\ f = one /\ o = zero \/
    exists c n0 n1 d a b e, only sc ["COMPU-RATIONAL-COEFFS"] c /\ listed c ["COMPU-NUMERATOR"] "V" [n0; n1] /\ listed c ["COMPU-DENOMINATOR"] "V" [d] /\
      number (x_text (snd n0)) = Ok a /\ number (x_text (snd n1)) = Ok b /\ number (x_text (snd d)) = Ok e /\
      py_truediv b e = Ok f /\ py_truediv a e = Ok o.
  Definition on_line (f o : num) (x y : option num) : Prop :=
    match x, y with Some x, Some y => exists p, py_mul x f = Ok p /\ py_add p o = Ok y | None, None => True | _, _ => False end.
  (** The limits are raw values; they do not count if they are in the wrong order *)
  Definition line (sc : node) (mn mx : option num) (f o : num) : Prop :=
    coefficients sc f o /\ exists lo hi, opt_num_at sc ["LOWER-LIMIT"] lo /\ opt_num_at sc ["UPPER-LIMIT"] hi /\
      ((exists l h, lo = Some l /\ hi = Some h /\ py_gt l h = true) /\ mn = None /\ mx = None \/
       (forall l h, lo = Some l -> hi = Some h -> py_gt l h = false) /\ on_line f o lo mn /\ on_line f o hi mx).
  (** An entry of a text table is for a single value *)
  Definition text_line (sc : node) (e : num * chars) : Prop :=
    exists hi, num_at sc ["LOWER-LIMIT"] (fst e) /\ num_at sc ["UPPER-LIMIT"] hi /\ py_eq (fst e) hi = true /\ text_at sc ["COMPU-CONST"; "VT"] (snd e).
  (** If lines and names are mixed, one limit is enough, and names of intervals do not count *)
  Definition mixed_line (sc : node) (p : piece) : Prop :=
    match p with
    | Name v t =>
        text_at sc ["COMPU-CONST"; "VT"] t /\
        (num_at sc ["LOWER-LIMIT"] v /\ (nothing sc ["UPPER-LIMIT"] \/ exists h, num_at sc ["UPPER-LIMIT"] h /\ py_eq v h = true) \/
         nothing sc ["LOWER-LIMIT"] /\ num_at sc ["UPPER-LIMIT"] v)
    | Line mn mx f o => nothing sc ["COMPU-CONST"; "VT"] /\ line sc mn mx f o
    | Neither =>
        (exists t, text_at sc ["COMPU-CONST"; "VT"] t) /\
        (nothing sc ["LOWER-LIMIT"] /\ nothing sc ["UPPER-LIMIT"] \/ exists l h, num_at sc ["LOWER-LIMIT"] l /\ num_at sc ["UPPER-LIMIT"] h /\ py_eq l h = false)
    end.
  Definition last_line (l : list piece) (mn mx : option num) (f o : num) : Prop :=
    (exists a b, l = a ++ Line mn mx f o :: b /\ forall mn' mx' f' o', ~ In (Line mn' mx' f' o') b) \/
    (forall mn' mx' f' o', ~ In (Line mn' mx' f' o') l) /\ mn = None /\ mx = None /\ f = one /\ o = zero.
  Definition names_of (l : list piece) : list (num * chars) := flat_map (fun p => match p with Name v t => [(v, t)] | _ => [] end) l.

  Definition method_of (sys : node) : list string :=
    either ["PHYSICAL-PROPS"; "SW-DATA-DEF-PROPS-VARIANTS"; "SW-DATA-DEF-PROPS-CONDITIONAL"; "COMPU-METHOD"] ["DATA-TYPE"; "SW-DATA-DEF-PROPS"; "COMPU-METHOD"].
  Definition scales_in (c : node) (l : list node) : Prop := listed c ["COMPU-INTERNAL-TO-PHYS"; "COMPU-SCALES"] "COMPU-SCALE" l.
  Inductive means (sys : node) : meaning -> Prop :=
  | me_none : nothing sys (method_of sys) -> means sys as_is
  | me_uncategorised c : only sys (method_of sys) c -> nothing c ["CATEGORY"] -> means sys as_is
  | me_other c t : only sys (method_of sys) c -> text_at c ["CATEGORY"] t -> ~ In t (map txt ["TEXTTABLE"; "LINEAR"; "SCALE_LINEAR_AND_TEXTTABLE"]) -> means sys as_is
  | me_table c l es : only sys (method_of sys) c -> text_at c ["CATEGORY"] (txt "TEXTTABLE") -> scales_in c l -> Forall2 text_line l es ->
      means sys (mkMeaning None None one zero (Some es))
  | me_flat c : only sys (method_of sys) c -> text_at c ["CATEGORY"] (txt "LINEAR") -> scales_in c [] -> means sys as_is
  | me_linear c sc mn mx f o : only sys (method_of sys) c -> text_at c ["CATEGORY"] (txt "LINEAR") -> scales_in c [sc] -> line sc mn mx f o ->
      means sys (mkMeaning mn mx f o None)
  | me_mixed c l ps mn mx f o : only sys (method_of sys) c -> text_at c ["CATEGORY"] (txt "SCALE_LINEAR_AND_TEXTTABLE") -> scales_in c l ->
      Forall2 mixed_line l ps -> last_line ps mn mx f o -> means sys (mkMeaning mn mx f o (Some (names_of ps))).
  (** The text of the unit: given for the system signal, or else for its method *)
  Definition unit_text (sys : node) (o : option chars) : Prop :=
    let direct := ["PHYSICAL-PROPS"; "SW-DATA-DEF-PROPS-VARIANTS"; "SW-DATA-DEF-PROPS-CONDITIONAL"; "UNIT"; "DISPLAY-NAME"] in
    (exists t, text_at sys direct t /\ o = Some t) \/
    nothing sys direct /\
      ((nothing sys (method_of sys) /\ o = None) \/ exists c, only sys (method_of sys) c /\ opt_text_at ns root c ["UNIT"; "DISPLAY-NAME"] o).
  (** There is no unit if there is no text, or if the text is NoUnit *)
  Definition unit_at (sys : node) (u : option chars) : Prop :=
    exists o, unit_text sys o /\ forall t, u = Some t <-> o = Some t /\ t <> [] /\ t <> txt "NoUnit".
  (** A comment without white space at the ends of its lines *)
  Inductive tidied : chars -> chars -> Prop :=
  | ti_last s t : ~ In lf s -> trimmed s t -> tidied s t
  | ti_more a b s t : ~ In lf a -> trimmed a b -> tidied s t -> tidied (a ++ lf :: s) (b ++ lf :: t).
  Definition language (e : node) (l : chars) : Prop := attr_says (snd e) "L" (Some l) \/ attr_says (snd e) "L" None /\ l = txt "EN".
  Definition all_comments (c : option comments_t) : list (chars * chars) := match c with Some d => d | None => [] end.
  (** For every language the last text that is not empty *)
  Definition comments_at (n : node) (c : option comments_t) : Prop :=
    exists l, listed n ["DESC"] "L-2" l /\ c <> Some [] /\
      forall lang t, In (lang, t) (all_comments c) <->
        exists a e b, l = a ++ e :: b /\ language e lang /\ x_text (snd e) <> [] /\ tidied (x_text (snd e)) t /\ forall e', In e' b -> language e' lang -> x_text (snd e') = [].
  Notation is_first := (first_kid ns).
  (** The text of the initial value.  In AUTOSAR 4 it is given for the I-SIGNAL, directly or by a constant; in AUTOSAR 3 the
      system signal refers to a literal. *)
  Definition initial_text (i : node) (t : chars) : Prop :=
    if v4 then
      text_at i ["INIT-VALUE"; "NUMERICAL-VALUE-SPECIFICATION"; "VALUE"] t \/
      nothing i ["INIT-VALUE"; "NUMERICAL-VALUE-SPECIFICATION"; "VALUE"] /\
      text_at i ["INIT-VALUE"; "CONSTANT-REFERENCE"; "CONSTANT"; "VALUE-SPEC"; "NUMERICAL-VALUE-SPECIFICATION"; "VALUE"] t
    else exists sys r k v, only i ["SYSTEM-SIGNAL"] sys /\ is_first "INIT-VALUE-REF" sys r /\ refers ns root sys r k /\ is_first "VALUE" k v /\ x_text (snd v) = t.
  (** The value that stands for no value *)
  Definition invalid_value (i : node) (z : Z) : Prop :=
    if v4 then int_at i ["NETWORK-REPRESENTATION-PROPS"; "SW-DATA-DEF-PROPS-VARIANTS"; "SW-DATA-DEF-PROPS-CONDITIONAL"; "INVALID-VALUE"; "NUMERICAL-VALUE-SPECIFICATION"; "VALUE"] z
    else exists sys n, only i ["SYSTEM-SIGNAL"] sys /\ only sys ["DATA-TYPE"; "SW-DATA-DEF-PROPS"; "INVALID-VALUE"] n /\
      (int_at n ["INTEGER-LITERAL"; "VALUE"] z \/
       nothing n ["INTEGER-LITERAL"; "VALUE"] /\ exists t w, text_at n ["BOOLEAN-LITERAL"; "VALUE"] t /\ trimmed (map to_lower t) w /\ (w = txt "true" /\ z = 1 \/ w <> txt "true" /\ z = 0)).
  (** The meaning of the signal of a mapping: that of its system signal *)
  Definition signal_means (mapping : node) (me : meaning) : Prop :=
    exists i, only mapping (either ["I-SIGNAL"] ["SIGNAL"]) i /\
      (nothing i ["SYSTEM-SIGNAL"] /\ me = as_is \/ exists sys, only i ["SYSTEM-SIGNAL"] sys /\ means sys me).
End Spec.
(** The name of the value [z]: the last one that is given for it *)
Definition name_for (names : list (num * chars)) (z : Z) (t : chars) : Prop :=
  exists a v b, names = a ++ (v, t) :: b /\ equals v z /\ forall x, In x b -> ~ equals (fst x) z.

(** ** Rows *)
Lemma f2_len {A B} (R : A -> B -> Prop) l m : Forall2 R l m -> List.length l = List.length m.
Proof. induction 1; [reflexivity|]. cbn. now f_equal. Qed.
Section Rows.
  Context (ns : chars) (root : xml) (rf : refs) (OK : reference_dicts ns root = Ok rf).
  Notation valid := (valid root).
  Notation children := (children ns rf).
  Lemma txt_app a b : txt (a ++ b)%string = txt a ++ txt b.
  Proof. unfold txt. induction a as [|c a IH]; [reflexivity|]. cbn. now f_equal. Qed.
  Lemma txt_bare a : txt (bare a) = atom_name a.
  Proof. unfold bare, txt. apply list_ascii_of_string_of_list_ascii. Qed.
  Lemma level_row a n l : valid n -> level ns rf a n = Ok l -> row ns root n (bare a) l.
  Proof using OK.
    intros W H. unfold level in H. apply bind_ok in H. destruct H as (ll & M & H). destruct (negb (marked "*" a) && (1 <? zlen (List.concat ll))); [discriminate|]. injection H as <-.
    pose proof (mapM_nth _ _ _ M) as Z. rewrite <- txt_bare in M, Z.
    assert (S : forall i x, nth_error ll i = Some x -> x = [] \/ exists y, x = [y]).
    { intros i x I. apply (Z i) in I. destruct I as (c & _ & O). apply (one_ok ns root rf OK n _ c x W) in O. destruct O as [(_ & ->)|[(_ & m & _ & ->)|(_ & _ & ->)]]; eauto. }
    exists (map (fun x => hd_error x) ll). split.
    - rewrite map_length. apply mapM_ok in M. rewrite <- (f2_len _ _ _ M). unfold n_kids. rewrite map_length. clear. generalize 0%nat as k. generalize (x_kids (snd n)) as l. induction l as [|x l IH]; intros k; [reflexivity|]. cbn. now rewrite <- (IH (S k)).
    - split.
      + clear - S. induction ll as [|x ll IH]; [reflexivity|]. cbn [List.concat map flat_map]. rewrite <- IH by (intros i; exact (S (Datatypes.S i))). destruct (S 0%nat x eq_refl) as [->|(y & ->)]; reflexivity.
      + intros i c K. apply kids_nth in K. apply (Z i) in K. destruct K as (x & I & O). apply (one_ok ns root rf OK n _ c x W) in O. rewrite nth_error_map, I. cbn [option_map]. rewrite txt_app.
        destruct O as [(T & ->)|[(T & m & R & ->)|(T1 & T2 & ->)]]; cbn [hd_error]; [left; now split|right; left; now exists m|right; right; now repeat split].
  Qed.
  Lemma concat_row (l : list node) : List.concat [l] = l. Proof. apply app_nil_r. Qed.
  Lemma children_app p : forall bases q, children_of ns rf bases (p ++ q) = (let* b := children_of ns rf bases p in children_of ns rf b q).
  Proof using.
    induction p as [|a p IH]; intros bases q; [reflexivity|]. cbn [app children_of]. destruct (mapM (level ns rf a) bases) as [l|e]; [|reflexivity]. cbn [bind]. apply IH.
  Qed.
  Lemma level_single a n l : marked "*" a = false -> level ns rf a n = Ok l -> (List.length l <= 1)%nat.
  Proof using.
    intros M H. unfold level in H. apply bind_ok in H. destruct H as (ll & _ & H). rewrite M in H. cbn in H. destruct (1 <? zlen (List.concat ll)) eqn:L; [discriminate|]. injection H as <-. unfold zlen in L. lia.
  Qed.
  Lemma children_single p : forallb (fun a => negb (marked "*" a)) p = true -> forall bases out, (List.length bases <= 1)%nat -> children_of ns rf bases p = Ok out -> (List.length out <= 1)%nat.
  Proof using.
    induction p as [|a p IH]; intros M bases out L H; [now injection H as <-|]. cbn in M. apply andb_true_iff in M. destruct M as (A & M). apply negb_true_iff in A. cbn in H. apply bind_ok in H. destruct H as (ll & ML & H).
    apply (IH M _ out) in H; [exact H|]. destruct bases as [|b [|? ?]]; [injection ML as <-; cbn; lia| |cbn in L; lia]. cbn in ML. apply bind_ok in ML. destruct ML as (x & X & ML). injection ML as <-. rewrite concat_row. exact (level_single a b x A X).
  Qed.
  Lemma at_listed p a n l : valid n -> children n (p ++ [a]) = Ok l -> forallb good_atom p && forallb (fun a => negb (marked "*" a)) p = true -> listed ns root n (map bare p) (bare a) l.
  Proof using OK.
    intros W H GM. apply andb_true_iff in GM. destruct GM as (G & M). unfold Arxml.children in H. rewrite children_app in H. apply bind_ok in H. destruct H as (b & B & H).
    pose proof (at_children ns root rf OK p n b W B G) as A. pose proof (children_valid ns root rf OK p n b W B G) as V.
    pose proof (children_single p M [n] b ltac:(cbn; lia) B) as L. destruct b as [|k [|? ?]]; [| |cbn in L; lia].
    - injection H as <-. left. split; [|reflexivity]. intros k K. now apply A in K.
    - inversion V; subst. right. exists k. split; [intros j; rewrite <- A; split; [now intros [->|[]]|intros ->; now left]|]. cbn in H. apply bind_ok in H. destruct H as (x & X & H). apply bind_ok in X. destruct X as (y & Y & X).
      injection X as <-. injection H as <-. cbn [List.concat]. rewrite app_nil_r. now apply level_row.
  Qed.
End Rows.

(** ** Equal numbers *)
Definition double (n : num) : Prop := match n with NFlt f => valid_binary 53 1024 f = true | NInt _ => True end.
Lemma compare_eq a b : match a ?= b with Eq => true | _ => false end = true <-> a = b.
Proof. destruct (Z.compare_spec a b); split; try discriminate; try reflexivity; lia. Qed.
Lemma opp_eq c : match CompOpp c with Eq => true | _ => false end = match c with Eq => true | _ => false end.
Proof. now destruct c. Qed.
Lemma eq_sym n z : py_eq (NInt z) n = py_eq n (NInt z).
Proof.
  unfold py_eq. destruct n as [y|f]; cbn [py_compare].
  - rewrite (Z.compare_antisym y z). now rewrite opp_eq.
  - destruct (cmp_Z_float z f) as [c|]; [|reflexivity]. cbn. now destruct c.
Qed.
Lemma eq_equals n z : py_eq n (NInt z) = true <-> equals n z.
Proof.
  destruct n as [y|[s|s| |s m e]].
  - unfold py_eq. cbn [py_compare]. rewrite compare_eq. reflexivity.
  - unfold py_eq. cbn [py_compare cmp_Z_float option_map]. rewrite opp_eq, compare_eq. reflexivity.
  - now destruct s; split.
  - now split.
  - unfold py_eq. cbn [py_compare cmp_Z_float option_map equals]. rewrite opp_eq. destruct (Z.leb_spec 0 e) as [E|E]; rewrite compare_eq.
    + rewrite (Z.max_l 0 (- e)), (Z.max_r 0 e), Z.pow_0_r, Z.mul_1_r by lia. assert (P : 0 < Z.pos m * 2 ^ e) by (apply Z.mul_pos_pos; [lia|apply Z.pow_pos_nonneg; lia]). set (v := Z.pos m * 2 ^ e) in *. clearbody v.
      unfold signed_Z. destruct s; split; [intros ->|intros (A & B); pose proof (proj2 B eq_refl); lia|intros ->|intros (A & B)].
      * split; [lia|]. split; [trivial|lia].
      * split; [lia|]. split; [lia|discriminate].
      * destruct (Z.lt_ge_cases z 0) as [N|N]; [now apply B in N|lia].
    + rewrite (Z.max_r 0 (- e)), (Z.max_l 0 e), Z.pow_0_r, Z.mul_1_r by lia. assert (D : 0 < 2 ^ (- e)) by (apply Z.pow_pos_nonneg; lia). set (d := 2 ^ (- e)) in *. clearbody d.
      unfold signed_Z. destruct s; split; [intros A|intros (A & B)|intros A|intros (A & B)].
      * assert (z < 0) by nia. rewrite Z.abs_neq by lia. split; [lia|]. split; [trivial|lia].
      * pose proof (proj2 B eq_refl). rewrite Z.abs_neq in A by lia. lia.
      * assert (0 < z) by nia. rewrite Z.abs_eq by lia. split; [lia|]. split; [lia|discriminate].
      * destruct (Z.lt_ge_cases z 0) as [N|N]; [now apply B in N|]. rewrite Z.abs_eq in A by lia. lia.
Qed.
Lemma sf_eq f g : SFcompare f g = Some Eq -> f = g \/ exists s t, f = S754_zero s /\ g = S754_zero t.
Proof.
  destruct f as [s|s| |s m e], g as [t|t| |t m' e']; cbn; try discriminate.
  - intros _. right. eauto.
  - destruct t; discriminate.
  - destruct t; discriminate.
  - destruct s; discriminate.
  - destruct s, t; try discriminate; now left.
  - destruct s; discriminate.
  - destruct s; discriminate.
  - destruct t; discriminate.
  - intros H. left. destruct s, t; try discriminate; destruct (Z.compare_spec e e') as [->| |]; try discriminate; change (Pcompare m m' Eq) with (m ?= m')%positive in H; destruct (Pos.compare_spec m m') as [->| |]; try discriminate; reflexivity.
Qed.
Lemma eq_same a b z : py_eq a b = true -> equals a z -> equals b z.
Proof.
  destruct b as [y|g]; [intros E A; apply eq_equals in E|].
  - assert (X : forall n, equals n y -> equals n z -> y = z).
    { intros [x|[s|s| |s m e]]; cbn [equals]; try congruence; try contradiction. intros (P & Q) (P' & Q'). destruct s.
      - pose proof (proj2 Q eq_refl). pose proof (proj2 Q' eq_refl). assert (0 < 2 ^ Z.max 0 (- e)) by (apply Z.pow_pos_nonneg; lia). nia.
      - assert (~ y < 0) by (intros N; now apply Q in N). assert (~ z < 0) by (intros N; now apply Q' in N). assert (0 < 2 ^ Z.max 0 (- e)) by (apply Z.pow_pos_nonneg; lia). nia. }
    exact (X a E A).
  - destruct a as [x|f].
    + intros E A. rewrite eq_sym in E. apply eq_equals in E. cbn in A. now subst.
    + unfold py_eq. cbn [py_compare]. intros E A. destruct (SFcompare f g) as [[]|] eqn:C; try discriminate. destruct (sf_eq f g C) as [<-|(s & t & -> & ->)]; exact A.
Qed.
Lemma sf_refl f : f <> S754_nan -> SFcompare f f = Some Eq.
Proof.
  destruct f as [s|s| |s m e]; cbn; try reflexivity; [now destruct s|contradiction|]. intros _. rewrite Z.compare_refl. change (Pcompare m m Eq) with (m ?= m)%positive. rewrite Pos.compare_refl. now destruct s.
Qed.
Lemma same_eq a b z : double a -> double b -> equals a z -> equals b z -> py_eq a b = true.
Proof.
  intros DA DB A B. destruct a as [x|f]; [cbn in A; subst x; rewrite eq_sym; now apply eq_equals|]. destruct b as [y|g]; [cbn in B; subst y; now apply eq_equals|].
  pose proof (equals_int_real (NFlt f) z (proj2 (eq_equals (NFlt f) z) A)) as RA. pose proof (equals_int_real (NFlt g) z (proj2 (eq_equals (NFlt g) z) B)) as RB. cbn [num_real] in RA, RB.
  unfold py_eq. cbn [py_compare]. destruct f as [s|s| |s m e], g as [t|t| |t m' e']; cbn [equals] in A, B; try contradiction; try reflexivity.
  - exfalso. destruct B as (B & _). rewrite A in B. change (Z.abs 0) with 0 in B. assert (0 < 2 ^ Z.max 0 e') by (apply Z.pow_pos_nonneg; lia). nia.
  - exfalso. destruct A as (A & _). rewrite B in A. change (Z.abs 0) with 0 in A. assert (0 < 2 ^ Z.max 0 e) by (apply Z.pow_pos_nonneg; lia). nia.
  - assert (E : SF2B (S754_finite s m e) DA = SF2B (S754_finite t m' e') DB).
    { apply B2R_inj; [reflexivity|reflexivity|]. rewrite !B2R_SF2B. exact (eq_trans RA (Logic.eq_sym RB)). }
    apply (f_equal B2SF) in E. rewrite !B2SF_SF2B in E. rewrite E. rewrite sf_refl; [reflexivity|discriminate].
Qed.

(** ** Named values *)
Definition find_name (l : list ArxmlLoad.named) (z : Z) : option choice := zget (conv_choices_of l) z.
Definition pair_of (c : ArxmlLoad.named) : num * chars := (nv_value c, nv_name c).
Lemma find_cons c l z : find_name (c :: l) z = if py_eq (nv_value c) (NInt z) then Some (ChNamed z (to_string (nv_name c))) else find_name l z.
Proof.
  unfold find_name, conv_choices_of. cbn [flat_map]. assert (I : (exists y, equals (nv_value c) y /\ integral c = [(y, ChNamed y (to_string (nv_name c)))]) \/ (forall y, ~ equals (nv_value c) y) /\ integral c = []).
  { unfold integral. pose proof (int_equals (nv_value c)) as Q. destruct (py_int (nv_value c)) as [y|e]; cbn [bind] in Q.
    - destruct (py_eq (nv_value c) (NInt y)) eqn:E; [left; exists y; split; [now apply eq_equals|reflexivity]|right; split; [|reflexivity]]. intros z' H. apply Q in H. discriminate.
    - right. split; [|reflexivity]. intros z' H. apply Q in H. discriminate. }
  destruct I as [(y & Y & ->)|(N & ->)]; cbn [app dget].
  - destruct (Z.eqb_spec y z) as [->|D]; [apply eq_equals in Y; now rewrite Y|]. destruct (py_eq (nv_value c) (NInt z)) eqn:E; [|reflexivity]. apply eq_equals in E.
    exfalso. apply D. assert (X : py_eq (nv_value c) (NInt y) = true) by now apply eq_equals. pose proof (eq_same _ _ z X E) as W. exact W.
  - destruct (py_eq (nv_value c) (NInt z)) eqn:E; [|reflexivity]. apply eq_equals in E. destruct (N z E).
Qed.
Lemma put_cons x l c : put_choice (x :: l) c = if py_eq (nv_value x) (nv_value c) then c :: l else x :: put_choice l c.
Proof. unfold put_choice. cbn [map dset fst snd]. destruct (py_eq (nv_value x) (nv_value c)); cbn [map snd]; [|reflexivity]. f_equal. rewrite map_map. apply map_id. Qed.
Lemma find_put c l z : double (nv_value c) -> Forall (fun x => double (nv_value x)) l ->
  find_name (put_choice l c) z = if py_eq (nv_value c) (NInt z) then Some (ChNamed z (to_string (nv_name c))) else find_name l z.
Proof.
  intros DC. induction 1 as [|x l DX _ IH]; [apply find_cons|]. rewrite put_cons. destruct (py_eq (nv_value x) (nv_value c)) eqn:E; rewrite !find_cons.
  - destruct (py_eq (nv_value c) (NInt z)) eqn:C; [reflexivity|]. destruct (py_eq (nv_value x) (NInt z)) eqn:X; [|reflexivity]. apply eq_equals in X. apply (eq_same _ _ z E) in X. apply eq_equals in X. congruence.
  - rewrite IH. destruct (py_eq (nv_value x) (NInt z)) eqn:X; [|reflexivity]. destruct (py_eq (nv_value c) (NInt z)) eqn:C; [|reflexivity]. apply eq_equals in X, C. rewrite (same_eq _ _ z DX DC X C) in E. discriminate.
Qed.
Lemma put_double c l : double (nv_value c) -> Forall (fun x => double (nv_value x)) l -> Forall (fun x => double (nv_value x)) (put_choice l c).
Proof. intros DC. induction 1 as [|x l DX F IH]; [now constructor|]. rewrite put_cons. destruct (py_eq (nv_value x) (nv_value c)); now constructor. Qed.
Definition names (l : list ArxmlLoad.named) : list (num * chars) := map pair_of l.
Lemma find_all l : Forall (fun x => double (nv_value x)) l -> forall acc, Forall (fun x => double (nv_value x)) acc -> forall z c,
  find_name (fold_left put_choice l acc) z = Some c <->
    (exists t, name_for (names l) z t /\ c = ChNamed z (to_string t)) \/ (forall x, In x (names l) -> ~ equals (fst x) z) /\ find_name acc z = Some c.
Proof.
  induction 1 as [|x l DX _ IH]; intros acc DA z c.
  - split; [intros H; right; split; [intros y []|exact H]|]. intros [(t & ([|? ?] & v & b & [=] & _) & _)|(_ & H)]. exact H.
  - cbn [fold_left]. rewrite (IH _ (put_double x acc DX DA) z c), (find_put x acc z DX DA). clear IH. split.
    + intros [(t & (a & v & b & E & Q & N) & ->)|(N & H)].
      * left. exists t. split; [|reflexivity]. exists (pair_of x :: a), v, b. split; [change (names (x :: l)) with (pair_of x :: names l); now rewrite E|now split].
      * destruct (py_eq (nv_value x) (NInt z)) eqn:X.
        { injection H as <-. apply eq_equals in X. left. exists (nv_name x). split; [|reflexivity]. exists [], (nv_value x), (names l). now repeat split. }
        { right. split; [|exact H]. intros y [<-|I]; [|now apply N]. cbn. intros Y. apply eq_equals in Y. congruence. }
    + intros [(t & (a & v & b & E & Q & N) & ->)|(N & H)].
      * change (names (x :: l)) with (pair_of x :: names l) in E. destruct a as [|y a].
        { injection E as E3 E4 E2. right. split; [now rewrite E2|]. subst v t. apply eq_equals in Q. now rewrite Q. }
        { injection E as _ E2. left. exists t. split; [|reflexivity]. exists a, v, b. now repeat split. }
      * right. split; [intros y I; apply N; now right|]. destruct (py_eq (nv_value x) (NInt z)) eqn:X; [|exact H]. apply eq_equals in X. destruct (N (pair_of x) (or_introl eq_refl) X).
Qed.

(** ** Proofs *)
Section Proofs.
  Context (from_text : chars -> option spec_float) (from_hex : chars -> result spec_float).
  (** float() and float.fromhex() return doubles *)
  Context (FT : forall t f, from_text t = Some f -> double (NFlt f)) (FH : forall t f, from_hex t = Ok f -> double (NFlt f)).
  Context (ns : chars) (root : xml) (rf : refs) (OK : reference_dicts ns root = Ok rf).
  Context (ver : version).
  Notation v4 := (ar4 ver).
  Notation only := (only ns root).
  Notation nothing := (nothing ns root).
  Notation text_at := (text_at ns root).
  Notation valid := (valid root).
  Notation child := (child ns rf).
  Notation children := (children ns rf).
  Notation number := (number from_text from_hex).
  Notation num_at := (num_at from_text from_hex ns root).
  Notation opt_num_at := (opt_num_at from_text from_hex ns root).
  Notation line := (line from_text from_hex ns root).

  Lemma number_double t n : number t = Ok n -> double n.
  Proof.
    unfold Arxml.number. intros H. destruct t as [|c r]; [discriminate|]. destruct (lower_text (strip_space (c :: r))) as [|x s]; [now injection H as <-|]. set (t := x :: s) in *. unfold number_body in H.
    destruct (is_text "true" t); [now injection H as <-|]. destruct (is_text "false" t); [now injection H as <-|].
    destruct (leads_octal _); [destruct (read_digits _ _ _); [now injection H as <-|discriminate]|]. destruct (int0 _); [now injection H as <-|].
    destruct (is_hex_prefixed _).
    - destruct (from_hex _) eqn:F; [|discriminate]. injection H as <-. exact (FH _ _ F).
    - destruct (from_text _) eqn:F; [|discriminate]. injection H as <-. exact (FT _ _ F).
  Qed.
  Lemma get_opt_num n l o x : valid n -> child n l = Ok o -> forallb good_atom l = true -> opt_number from_text from_hex o = Ok x -> opt_num_at n (map bare l) x.
  Proof using OK.
    intros W C G I. pose proof (at_child ns root rf OK l n o W C G) as A. destruct o as [m|]; [|now injection I as <-].
    cbn in I. apply bind_ok in I. destruct I as (y & I & E). injection E as <-. exists (n_text m). split; [|exact I]. exists m. split; [apply A|reflexivity].
  Qed.
  Lemma num_double n names x : num_at n names x -> double x.
  Proof using FT FH. intros (t & _ & N). exact (number_double t x N). Qed.
  Lemma limits_ok sc lo hi : valid sc -> scale_limits from_text from_hex ns rf sc = Ok (lo, hi) -> opt_num_at sc ["LOWER-LIMIT"] lo /\ opt_num_at sc ["UPPER-LIMIT"] hi.
  Proof using OK.
    intros W H. unfold scale_limits in H. apply bind_ok in H. destruct H as (a & A & H). apply bind_ok in H. destruct H as (b & B & H). apply bind_ok in H. destruct H as (x & X & H). apply bind_ok in H. destruct H as (y & Y & H). injection H as <- <-.
    split; [exact (get_opt_num sc _ a x W A eq_refl X)|exact (get_opt_num sc _ b y W B eq_refl Y)].
  Qed.
  Lemma text_entry_ok acc sc out : valid sc -> text_entry from_text from_hex ns rf acc sc = Ok out ->
    exists c, out = put_choice acc c /\ text_line from_text from_hex ns root sc (pair_of c).
  Proof using OK.
    intros W H. unfold text_entry in H. apply bind_ok in H. destruct H as (vt & V & H). apply bind_ok in H. destruct H as ((lo & hi) & L & H). destruct (limits_ok sc lo hi W L) as (LO & HI).
    destruct lo as [lo|]; [|discriminate]. destruct hi as [hi|]; [|discriminate]. destruct (py_eq lo hi) eqn:E; [|discriminate]. apply bind_ok in H. destruct H as (name & N & H). apply bind_ok in H. destruct H as (com & _ & H). injection H as <-.
    eexists. split; [reflexivity|]. exists hi. cbn [pair_of fst snd nv_value nv_name]. split; [exact LO|]. split; [exact HI|]. split; [exact E|]. exact (get_text ns root rf OK sc _ vt name W V eq_refl N).
  Qed.
  Lemma text_entries_ok l : Forall valid l -> forall acc out, foldM (text_entry from_text from_hex ns rf) l acc = Ok out ->
    exists cs, out = fold_left put_choice cs acc /\ Forall2 (text_line from_text from_hex ns root) l (names cs).
  Proof using OK.
    induction 1 as [|sc l W _ IH]; intros acc out H.
    - injection H as <-. exists []. split; [reflexivity|constructor].
    - cbn in H. apply bind_ok in H. destruct H as (a & A & H). destruct (text_entry_ok acc sc a W A) as (c & -> & T). destruct (IH _ _ H) as (cs & -> & F). exists (c :: cs). split; [reflexivity|]. now constructor.
  Qed.
  Lemma scaled_ok f o x y : scaled_limit x f o = Ok y -> on_line f o x y.
  Proof using.
    unfold scaled_limit. destruct x as [x|]; [|now intros [= <-]]. intros H. apply bind_ok in H. destruct H as (p & P & H). apply bind_ok in H. destruct H as (s & S & H). injection H as <-. now exists p.
  Qed.
  Lemma row_ok n a b l : valid n -> children n [a; b] = Ok l -> good_atom a && negb (marked "*" a) = true -> listed ns root n [bare a] (bare b) l.
  Proof using OK. intros W H G. apply (at_listed ns root rf OK [a] b n l W H). cbn. now rewrite !andb_true_r. Qed.
  Lemma line_ok sc mn mx f o : valid sc -> linear_scale from_text from_hex ns rf sc = Ok (mn, mx, f, o) -> line sc mn mx f o.
  Proof using OK.
    intros W H. unfold linear_scale in H. apply bind_ok in H. destruct H as (co & C & H). pose proof (at_child ns root rf OK _ sc co W C eq_refl) as A. apply bind_ok in H. destruct H as ((f' & o') & FO & H). apply bind_ok in H. destruct H as ((lo & hi) & L & H).
    destruct (limits_ok sc lo hi W L) as (LO & HI).
    assert (CO : coefficients from_text from_hex ns root sc f' o').
    { destruct co as [c|]; [|injection FO as <- <-; left; now repeat split]. destruct A as (VC & A). right.
      apply bind_ok in FO. destruct FO as (nums & NU & FO). destruct nums as [|n0 [|n1 [|? ?]]]; try discriminate. apply bind_ok in FO. destruct FO as (dens & DE & FO). destruct dens as [|d [|? ?]]; try discriminate.
      apply bind_ok in FO. destruct FO as (e & E & FO). apply bind_ok in FO. destruct FO as (b & B & FO). apply bind_ok in FO. destruct FO as (q & Q & FO). apply bind_ok in FO. destruct FO as (a & A' & FO). apply bind_ok in FO. destruct FO as (r & R & FO). injection FO as <- <-.
      exists c, n0, n1, d, a, b, e. split; [exact A|]. split; [exact (row_ok c _ _ _ VC NU eq_refl)|]. split; [exact (row_ok c _ _ _ VC DE eq_refl)|]. now repeat split. }
    destruct (match lo, hi with Some l, Some h => py_gt l h | _, _ => false end) eqn:G.
    - destruct lo as [l|]; [|discriminate]. destruct hi as [h|]; [|discriminate]. rewrite G in H. cbn in H. injection H as <- <- <- <-. split; [exact CO|]. exists (Some l), (Some h). split; [exact LO|]. split; [exact HI|]. left. split; [now exists l, h|now split].
    - assert (H' : (let* mn := scaled_limit lo f' o' in let* mx := scaled_limit hi f' o' in Ok (mn, mx, f', o')) = Ok (mn, mx, f, o)).
      { destruct lo as [l|], hi as [h|]; try exact H. rewrite G in H. exact H. }
      clear H. apply bind_ok in H'. destruct H' as (x & X & H). apply bind_ok in H. destruct H as (y & Y & H). injection H as <- <- <- <-. split; [exact CO|]. exists lo, hi. split; [exact LO|]. split; [exact HI|]. right.
      split; [intros l h -> ->; exact G|]. split; now apply scaled_ok.
  Qed.
  Definition line_of (p : piece) : list (option num * option num * num * num) := match p with Line mn mx f o => [(mn, mx, f, o)] | _ => [] end.
  Lemma mixed_entry_ok st sc out : valid sc -> mixed_entry from_text from_hex ns rf st sc = Ok out ->
    exists p cs, mixed_line from_text from_hex ns root sc p /\ fst out = last (line_of p) (fst st) /\ snd out = fold_left put_choice cs (snd st) /\ names_of [p] = names cs.
  Proof using OK.
    intros W H. unfold mixed_entry in H. apply bind_ok in H. destruct H as (vt & V & H). pose proof (at_child ns root rf OK _ sc vt W V eq_refl) as A. destruct vt as [v|].
    - destruct A as (_ & A). apply bind_ok in H. destruct H as ((lo & hi) & L & H). destruct (limits_ok sc lo hi W L) as (LO & HI).
      assert (T : text_at sc ["COMPU-CONST"; "VT"] (n_text v)) by (exists v; split; [exact A|reflexivity]).
      assert (K : forall x, (let* c := load_comments ns rf sc in Ok (fst st, put_choice (snd st) (mkNamed x (n_text v) c))) = Ok out ->
        mixed_line from_text from_hex ns root sc (Name x (n_text v)) -> exists p cs, mixed_line from_text from_hex ns root sc p /\ fst out = last (line_of p) (fst st) /\ snd out = fold_left put_choice cs (snd st) /\ names_of [p] = names cs).
      { intros x E M. apply bind_ok in E. destruct E as (c & _ & E). injection E as <-. exists (Name x (n_text v)), [mkNamed x (n_text v) c]. split; [exact M|]. now repeat split. }
      assert (N : Ok st = Ok out -> mixed_line from_text from_hex ns root sc Neither -> exists p cs, mixed_line from_text from_hex ns root sc p /\ fst out = last (line_of p) (fst st) /\ snd out = fold_left put_choice cs (snd st) /\ names_of [p] = names cs).
      { intros [= <-] M. exists Neither, []. split; [exact M|]. now repeat split. }
      destruct lo as [lo|], hi as [hi|]; [destruct (py_eq lo hi) eqn:E| | |].
      + apply (K lo H). split; [exact T|]. left. split; [exact LO|]. right. now exists hi.
      + apply (N H). split; [now exists (n_text v)|]. right. now exists lo, hi.
      + apply (K lo H). split; [exact T|]. left. split; [exact LO|]. now left.
      + apply (K hi H). split; [exact T|]. right. now split.
      + apply (N H). split; [now exists (n_text v)|]. left. now split.
    - apply bind_ok in H. destruct H as ((((mn & mx) & f) & o) & L & H). injection H as <-. exists (Line mn mx f o), []. split; [split; [exact A|now apply line_ok]|]. now repeat split.
  Qed.
  Lemma last_app {A} (a b : list A) d : last (a ++ b) d = last b (last a d).
  Proof using. induction a as [|x a IH]; [reflexivity|]. destruct a as [|y a]; [cbn; destruct b as [|z b]; [reflexivity|]; clear; revert z; induction b as [|w b IH]; intros z; [reflexivity|apply IH]|]. exact IH. Qed.
  Lemma mixed_entries_ok l : Forall valid l -> forall st out, foldM (mixed_entry from_text from_hex ns rf) l st = Ok out ->
    exists ps cs, Forall2 (mixed_line from_text from_hex ns root) l ps /\ fst out = last (flat_map line_of ps) (fst st) /\ snd out = fold_left put_choice cs (snd st) /\ names_of ps = names cs.
  Proof using OK.
    induction 1 as [|sc l W _ IH]; intros st out H.
    - injection H as <-. exists [], []. split; [constructor|now repeat split].
    - cbn in H. apply bind_ok in H. destruct H as (a & A & H). destruct (mixed_entry_ok st sc a W A) as (p & cs & M & E1 & E2 & E3). destruct (IH _ _ H) as (ps & ds & F & D1 & D2 & D3).
      exists (p :: ps), (cs ++ ds). split; [now constructor|]. cbn [flat_map]. rewrite last_app, <- E1, fold_left_app, <- E2. split; [exact D1|]. split; [exact D2|]. unfold names. rewrite map_app. change (map pair_of cs) with (names cs). change (map pair_of ds) with (names ds). rewrite <- E3, <- D3.
      unfold names_of. cbn [flat_map]. now rewrite app_nil_r.
  Qed.
  Lemma last_line_ok ps mn mx f o : last (flat_map line_of ps) (None, None, one, zero) = (mn, mx, f, o) -> last_line ps mn mx f o.
  Proof using.
    induction ps as [|p ps IH] using rev_ind; intros H.
    - injection H as <- <- <- <-. right. split; [intros ? ? ? ? []|now repeat split].
    - rewrite flat_map_app, last_app in H. cbn [flat_map] in H. rewrite app_nil_r in H. destruct p as [v t|mn' mx' f' o'|]; cbn [line_of last] in H.
      + destruct (IH H) as [(a & b & -> & N)|(N & R)]; [left; exists a, (b ++ [Name v t])|right].
        * split; [now rewrite <- app_assoc|]. intros ? ? ? ? I. apply in_app_iff in I. destruct I as [I|[I|[]]]; [exact (N _ _ _ _ I)|discriminate].
        * split; [|exact R]. intros ? ? ? ? I. apply in_app_iff in I. destruct I as [I|[I|[]]]; [exact (N _ _ _ _ I)|discriminate].
      + injection H as <- <- <- <-. left. exists ps, []. split; [reflexivity|intros ? ? ? ? []].
      + destruct (IH H) as [(a & b & -> & N)|(N & R)]; [left; exists a, (b ++ [Neither])|right].
        * split; [now rewrite <- app_assoc|]. intros ? ? ? ? I. apply in_app_iff in I. destruct I as [I|[I|[]]]; [exact (N _ _ _ _ I)|discriminate].
        * split; [|exact R]. intros ? ? ? ? I. apply in_app_iff in I. destruct I as [I|[I|[]]]; [exact (N _ _ _ _ I)|discriminate].
  Qed.
  Lemma scales_ok c q l : valid c -> children c ["&COMPU-INTERNAL-TO-PHYS"; "COMPU-SCALES"; q] = Ok l -> bare q = "COMPU-SCALE" -> scales_in ns root c l.
  Proof using OK. intros W H B. unfold scales_in. rewrite <- B. exact (at_listed ns root rf OK ["&COMPU-INTERNAL-TO-PHYS"; "COMPU-SCALES"] q c l W H eq_refl). Qed.
  Definition same_table (o : option (list (num * chars))) (p : option (list ArxmlLoad.named)) : Prop :=
    match o, p with
    | None, None => True
    | Some ns, Some l => exists cs, l = fold_left put_choice cs [] /\ ns = names cs /\ Forall (fun c => double (nv_value c)) cs
    | _, _ => False
    end.
  Lemma names_double l : (forall v t, In (v, t) (names l) -> double v) -> Forall (fun c => double (nv_value c)) l.
  Proof using. intros H. apply Forall_forall. intros c I. apply (H (nv_value c) (nv_name c)). exact (in_map pair_of l c I). Qed.
  Lemma forall2_in {A B} (R : A -> B -> Prop) l m y : Forall2 R l m -> In y m -> exists x, In x l /\ R x y.
  Proof using. induction 1 as [|a b l m H _ IH]; intros []; [subst; exists a; split; [now left|exact H]|]. destruct (IH H0) as (x & I & X). exists x. split; [now right|exact X]. Qed.
  Lemma method_ok sys cm : valid sys -> compu_method ns rf ver sys = Ok cm ->
    match cm with Some c => valid c /\ only sys (method_of v4 sys) c | None => nothing sys (method_of v4 sys) end.
  Proof using OK.
    intros W H. unfold compu_method in H. pose proof (at_child ns root rf OK _ sys cm W H ltac:(unfold loc; now destruct v4)) as A. rewrite either_bare in A. exact A.
  Qed.
  Lemma means_ok sys mn mx f o ch un com : valid sys -> load_system_signal from_text from_hex ns rf ver sys = Ok (mn, mx, f, o, ch, un, com) ->
    exists nm, means from_text from_hex ns root v4 sys (mkMeaning mn mx f o nm) /\ same_table nm ch.
  Proof using OK FT FH.
    intros W H. unfold load_system_signal in H. apply bind_ok in H. destruct H as (cm & CM & H). apply bind_ok in H. destruct H as (u & _ & H). apply bind_ok in H. destruct H as (c' & _ & H). pose proof (method_ok sys cm W CM) as A.
    destruct cm as [c|]; [|injection H as <- <- <- <- <- <- <-; exists None; split; [now apply me_none|exact I]]. destruct A as (VC & A). apply bind_ok in H. destruct H as (cat & CA & H). pose proof (at_child ns root rf OK _ c cat VC CA eq_refl) as B.
    destruct cat as [k|]; [|injection H as <- <- <- <- <- <- <-; exists None; split; [now apply (me_uncategorised _ _ _ _ _ sys c)|exact I]]. destruct B as (_ & B).
    assert (T : text_at c ["CATEGORY"] (n_text k)) by (exists k; split; [exact B|reflexivity]).
    destruct (is_text "TEXTTABLE" (n_text k)) eqn:T1; [|destruct (is_text "LINEAR" (n_text k)) eqn:T2; [|destruct (is_text "SCALE_LINEAR_AND_TEXTTABLE" (n_text k)) eqn:T3]].
    - apply is_text_iff in T1. rewrite T1 in T. apply bind_ok in H. destruct H as (t & L & H). injection H as <- <- <- <- <- <- <-. unfold load_texttable in L. apply bind_ok in L. destruct L as (l & C & L).
      destruct (text_entries_ok l (children_valid ns root rf OK _ c l VC C eq_refl) [] t L) as (cs & -> & F). exists (Some (names cs)). split.
      + apply (me_table _ _ _ _ _ sys c l (names cs) A T); [now apply (scales_ok c _ l VC C)|exact F].
      + exists cs. split; [reflexivity|]. split; [reflexivity|]. apply names_double. intros v t I. destruct (forall2_in _ _ _ _ F I) as (x & _ & (hi & N & _)). exact (num_double _ _ _ N).
    - apply is_text_iff in T2. rewrite T2 in T. apply bind_ok in H. destruct H as (t & L & H). injection H as -> <- <- <-. exists None. split; [|exact I]. unfold load_linear in L. apply bind_ok in L. destruct L as (l & C & L).
      pose proof (at_listed ns root rf OK ["COMPU-INTERNAL-TO-PHYS"; "COMPU-SCALES"] "&COMPU-SCALE" c l VC C eq_refl) as LS. change (scales_in ns root c l) in LS.
      pose proof (children_valid ns root rf OK _ c l VC C eq_refl) as V. pose proof (children_single ns rf ["COMPU-INTERNAL-TO-PHYS"; "COMPU-SCALES"; "&COMPU-SCALE"] eq_refl [c] l ltac:(cbn; lia) C) as LN.
      destruct l as [|sc [|? ?]]; [| |cbn in LN; lia].
      + injection L as <- <- <- <-. exact (me_flat _ _ _ _ _ sys c A T LS).
      + inversion V; subst. cbn in L. apply bind_ok in L. destruct L as (q & L & E). injection E as ->. apply (me_linear _ _ _ _ _ sys c sc mn mx f o A T LS). now apply line_ok.
    - apply is_text_iff in T3. rewrite T3 in T. apply bind_ok in H. destruct H as ((t & cl) & L & H). injection H as -> <- <- <-. unfold load_mixed in L. apply bind_ok in L. destruct L as (l & C & L).
      destruct (mixed_entries_ok l (children_valid ns root rf OK _ c l VC C eq_refl) (no_scale, []) _ L) as (ps & cs & F & E1 & E2 & E3). cbn [fst snd] in E1, E2. subst cl. exists (Some (names_of ps)). split.
      + apply (me_mixed _ _ _ _ _ sys c l ps mn mx f o A T); [now apply (scales_ok c _ l VC C)|exact F|]. now apply last_line_ok.
      + exists cs. split; [reflexivity|]. split; [exact E3|]. apply names_double. intros v t I. rewrite <- E3 in I. apply in_flat_map in I. destruct I as (p & I & J). destruct p as [v' t'|? ? ? ?|]; cbn in J; try contradiction. destruct J as [J|[]]. injection J as -> ->.
        destruct (forall2_in _ _ _ _ F I) as (x & _ & (_ & [(N & _)|(_ & N)])); exact (num_double _ _ _ N).
    - injection H as <- <- <- <- <- <- <-. exists None. split; [|exact I]. apply (me_other _ _ _ _ _ sys c (n_text k) A T). intros J. cbn [map In] in J.
      destruct J as [J|[J|[J|[]]]]; symmetry in J; apply is_text_iff in J; congruence.
  Qed.
  (** Every signal is scaled and named as its mapping says. *)
  Definition scaled_as (me : meaning) (s : signal) : Prop :=
    s_min s = me_min me /\ s_max s = me_max me /\
    exists tb, factory (me_factor me) (me_offset me) tb (conv_is_float (s_conv s)) = Ok (s_conv s) /\
      match me_names me, tb with
      | None, None => True
      | Some l, Some tb => forall z c, zget tb z = Some c <-> exists t, name_for l z t /\ c = ChNamed z (to_string t)
      | _, _ => False
      end.
  Theorem C73_scaling m s : valid m -> load_signal from_text from_hex ns rf ver m = Ok (Some s) ->
    exists me, signal_means from_text from_hex ns root v4 m me /\ scaled_as me (a_sig s).
  Proof using OK FT FH.
    intros W H. unfold load_signal in H. apply bind_ok in H. destruct H as (io & C & H). destruct io as [i|]; [|discriminate].
    assert (A : valid i /\ only m (either v4 ["I-SIGNAL"] ["SIGNAL"]) i).
    { pose proof (at_child ns root rf OK (loc ver ["&I-SIGNAL"] ["&SIGNAL"]) m _ W C ltac:(unfold loc; now destruct v4)) as A. rewrite either_bare in A. exact A. }
    destruct A as (VI & A). apply bind_ok in H. destruct H as (sys & S & H). pose proof (at_child ns root rf OK _ i sys VI S eq_refl) as B. cbn [map] in B. change (bare "&SYSTEM-SIGNAL") with "SYSTEM-SIGNAL" in B.
    destruct (match sys with Some s => negb (has_tag ns "SYSTEM-SIGNAL" s) | None => false end); [discriminate|].
    apply bind_ok in H. destruct H as (name & N & H). apply bind_ok in H. destruct H as (so & SO & H). apply bind_ok in H. destruct H as (start & ST & H).
    apply bind_ok in H. destruct H as (len & L & H). apply bind_ok in H. destruct H as (big & BG & H). apply bind_ok in H. destruct H as (ty & TY & H).
    apply bind_ok in H. destruct H as (((((((mn & mx) & fa) & of) & ch) & un) & com) & PH & H). apply bind_ok in H. destruct H as (ini & INI & H). apply bind_ok in H. destruct H as (inv & INV & H).
    apply bind_ok in H. destruct H as (conv & CV & H). apply bind_ok in H. destruct H as (s' & NS & H). injection H as ->.
    destruct (new_place _ _ _ _ _ _ _ _ _ _ _ _ _ _ _ NS) as (E & _). rewrite E.
    assert (P : exists nm, signal_means from_text from_hex ns root v4 m (mkMeaning mn mx fa of nm) /\ same_table nm ch).
    { destruct sys as [y|].
      - destruct B as (VY & B). destruct (means_ok y _ _ _ _ _ _ _ VY PH) as (nm & M & T). exists nm. split; [|exact T]. exists i. split; [exact A|]. right. now exists y.
      - injection PH as <- <- <- <- <- <- <-. exists None. split; [|exact I]. exists i. split; [exact A|]. left. now split. }
    destruct P as (nm & M & T). exists (mkMeaning mn mx fa of nm). split; [exact M|]. unfold scaled_as. cbn [s_min s_max s_conv me_min me_max me_factor me_offset me_names]. split; [reflexivity|]. split; [reflexivity|].
    exists (option_map conv_choices_of ch). rewrite (factory_float _ _ _ _ _ CV). split; [exact CV|]. destruct nm as [l|], ch as [cl|]; try contradiction; [|exact I].
    destruct T as (cs & -> & -> & D). cbn [option_map]. intros z c. pose proof (find_all cs D [] (Forall_nil _) z c) as F. unfold find_name in F. rewrite F. cbn. split; [intros [X|(_ & X)]; [exact X|discriminate]|now left].
  Qed.
  (** What is seen of it: a raw value that has a name is decoded to it, and any other is put on the line. *)
  Theorem C73_decoded m s z v : valid m -> load_signal from_text from_hex ns rf ver m = Ok (Some s) -> raw_to_scaled (s_conv (a_sig s)) (NInt z) true = Ok v ->
    exists me, signal_means from_text from_hex ns root v4 m me /\
      ((exists l t, me_names me = Some l /\ name_for l z t /\ v = VNamed z (to_string t)) \/
       (forall l t, me_names me = Some l -> ~ name_for l z t) /\ exists c, factory (me_factor me) (me_offset me) None (conv_is_float (s_conv (a_sig s))) = Ok c /\ raw_to_scaled c (NInt z) true = Ok v).
  Proof using OK FT FH.
    intros W H R. destruct (C73_scaling m s W H) as (me & M & _ & _ & tb & F & T). exists me. split; [exact M|]. destruct (me_names me) as [l|], tb as [tb|]; try contradiction.
    - destruct (named_factory _ _ _ _ _ F) as (inner & NF & E). destruct (zget tb z) as [c|] eqn:G.
      + left. apply T in G as G'. destruct G' as (t & NM & ->). exists l, t. split; [reflexivity|]. split; [exact NM|]. rewrite E in R. cbn in R. rewrite G in R. now injection R as <-.
      + right. split.
        * intros l' t [= <-] NM. assert (zget tb z = Some (ChNamed z (to_string t))) by (apply T; now exists t). congruence.
        * exists (CNum inner). split; [unfold factory; rewrite NF; reflexivity|]. rewrite E in R. cbn in R. rewrite G in R. exact R.
    - right. split; [discriminate|]. exists (s_conv (a_sig s)). now split.
  Qed.

  Lemma unit_ok sys cm u : valid sys -> compu_method ns rf ver sys = Ok cm -> load_unit ns rf sys cm = Ok u -> unit_at ns root v4 sys u.
  Proof using OK.
    intros W CM H. pose proof (method_ok sys cm W CM) as A. unfold load_unit in H. apply bind_ok in H. destruct H as (r & R & H). pose proof (at_child ns root rf OK _ sys r W R eq_refl) as B. apply bind_ok in H. destruct H as (q & Q & H). injection H as <-.
    exists (opt_text q). split.
    - destruct r as [n|].
      + left. exists (n_text n). split; [exists n; split; [apply B|reflexivity]|]. now destruct cm; injection Q as <-.
      + right. split; [exact B|]. destruct cm as [c|].
        * right. destruct A as (VC & A). exists c. split; [exact A|]. pose proof (at_child ns root rf OK _ c q VC Q eq_refl) as D. destruct q as [n|]; [exists n; split; [apply D|reflexivity]|exact D].
        * left. split; [exact A|]. now injection Q as <-.
    - intros t. destruct q as [n|]; cbn [opt_text option_map]; [|split; [discriminate|intros ([=] & _)]]. destruct (is_text "NoUnit" (n_text n)) eqn:N.
      + apply is_text_iff in N. split; [discriminate|]. intros ([= <-] & _ & X). contradiction.
      + assert (N' : n_text n <> txt "NoUnit") by (intros X; apply is_text_iff in X; congruence). destruct (n_text n) as [|c s]; [split; [discriminate|now intros ([= <-] & X & _)]|].
        split; [intros [= <-]; now repeat split|]. now intros ([= <-] & _).
  Qed.
  Lemma comment_tidied : forall s, tidied s (comment_text s).
  Proof using.
    unfold comment_text. intros s. assert (X : exists w ws, split_on lf s = w :: ws) by apply split_nonempty. destruct X as (w & ws & E). rewrite E. revert s w E. induction ws as [|w' ws IH]; intros s w E.
    - cbn. assert (S : s = w /\ ~ In lf s).
      { revert w E. induction s as [|c s IHs]; intros w E; cbn in E; [injection E as <-; now split|]. destruct (Ascii.eqb_spec c lf) as [->|N].
        - destruct (split_nonempty lf s) as (? & ? & F). rewrite F in E. discriminate.
        - destruct (split_nonempty lf s) as (x & xs & F). rewrite F in E. injection E as <- ->. destruct (IHs x F) as (<- & NI). split; [reflexivity|]. intros [X|X]; [now apply N|contradiction]. }
      destruct S as (<- & NI). apply ti_last; [exact NI|]. now apply strip_trimmed.
    - assert (S : exists s', s = w ++ lf :: s' /\ ~ In lf w /\ split_on lf s' = w' :: ws).
      { clear IH. revert w E. induction s as [|c s IHs]; intros w E; cbn in E; [discriminate|]. destruct (Ascii.eqb_spec c lf) as [->|N].
        - injection E as <- E. exists s. split; [reflexivity|]. split; [intros []|exact E].
        - destruct (split_nonempty lf s) as (x & xs & F). rewrite F in E. injection E as <- ->. destruct (IHs x F) as (s' & -> & NI & Q). exists s'. split; [reflexivity|]. split; [|exact Q]. intros [X|X]; [now apply N|contradiction]. }
      destruct S as (s' & -> & NI & Q). specialize (IH s' w' Q). cbn [map join_with]. cbn [map] in IH. apply ti_more; [exact NI|now apply strip_trimmed|exact IH].
  Qed.
  Lemma tidied_fun s t t' : tidied s t -> tidied s t' -> t = t'.
  Proof using.
    intros T. revert t'. assert (X : forall a b c d : chars, ~ In lf a -> ~ In lf c -> a ++ lf :: b = c ++ lf :: d -> a = c /\ b = d).
    { induction a as [|x a IH]; intros b [|y c] d NA NC E; cbn [app] in E.
      - injection E as E. now split.
      - injection E as E1 E2. exfalso. apply NC. left. now symmetry.
      - injection E as E1 E2. exfalso. apply NA. now left.
      - injection E as E1 E2. subst y. destruct (IH b c d) as (-> & ->); [intros I; apply NA; now right|intros I; apply NC; now right|exact E2|now split]. }
    induction T as [s t N T|a b s t N T _ IH]; intros t' T'; inversion T' as [s0 t0 N' Q|a' b' s' u N' Q R]; subst.
    - exact (trimmed_fun _ _ _ T Q).
    - exfalso. apply N. apply in_app_iff. right. now left.
    - exfalso. apply N'. apply in_app_iff. right. now left.
    - destruct (X a' s' a s N' N H) as (-> & ->). rewrite (trimmed_fun _ _ _ T Q). now rewrite (IH u R).
  Qed.
  Definition lang_of (x : node) : chars := match n_attr x "L" with Some a => a | None => txt "EN" end.
  Lemma lang_iff x l : language x l <-> lang_of x = l.
  Proof using.
    unfold language, lang_of, n_attr. rewrite <- !attr_iff. destruct (dget chars_eqb (x_attrs (snd x)) (txt "L")) as [a|]; split; [intros [[= ->]|([=] & _)]; reflexivity|intros ->; now left|intros [[=]|(_ & ->)]; reflexivity|intros <-; right; now split].
  Qed.
  Definition add_comment (d : comments_t) (x : node) : comments_t := match n_text x with [] => d | t => dset chars_eqb d (lang_of x) (comment_text t) end.
  Lemma comments_fold l : forall d, NoDup (map fst d) -> NoDup (map fst (fold_left add_comment l d)) /\
    forall lang t, In (lang, t) (fold_left add_comment l d) <->
      (exists a e b, l = a ++ e :: b /\ language e lang /\ x_text (snd e) <> [] /\ tidied (x_text (snd e)) t /\ forall e', In e' b -> language e' lang -> x_text (snd e') = []) \/
      (forall e, In e l -> language e lang -> x_text (snd e) = []) /\ In (lang, t) d.
  Proof using.
    induction l as [|x l IH]; intros d ND.
    - split; [exact ND|]. intros lang t. split; [intros I; right; split; [intros ? []|exact I]|]. intros [([|? ?] & e & b & [=] & _)|(_ & I)]. exact I.
    - cbn [fold_left]. unfold add_comment at 2 4. unfold n_text. destruct (x_text (snd x)) as [|c r] eqn:T.
      + destruct (IH d ND) as (N & F). split; [exact N|]. intros lang t. rewrite (F lang t). split.
        * intros [(a & e & b & -> & R)|(M & I)]; [left; exists (x :: a), e, b; now split|right; split; [|exact I]]. intros e [<-|J] L; [exact T|now apply M].
        * intros [([|y a] & e & b & E & L & NE & R)|(M & I)]; [injection E as -> ->; contradiction|injection E as -> ->; left; exists a, e, b; now split|right; split; [|exact I]]. intros e J L. apply M; [now right|exact L].
      + assert (ND' : NoDup (map fst (dset chars_eqb d (lang_of x) (comment_text (c :: r))))) by now apply (set_nodup _ cspec).
        destruct (IH _ ND') as (N & F). split; [exact N|]. intros lang t. rewrite (F lang t). clear IH F N.
        assert (S : In (lang, t) (dset chars_eqb d (lang_of x) (comment_text (c :: r))) <-> (language x lang /\ tidied (c :: r) t) \/ ~ language x lang /\ In (lang, t) d).
        { assert (G : forall e : comments_t, NoDup (map fst e) -> (In (lang, t) e <-> dget chars_eqb e lang = Some t)) by (intros e NE; split; [now apply (in_get _ cspec)|now apply (get_in _ cspec)]).
          rewrite (G _ ND'), (get_set _ cspec), (G _ ND). rewrite lang_iff. destruct (cspec (lang_of x) lang) as [E|E].
          - split; [intros [= <-]; left; split; [exact E|apply comment_tidied]|]. intros [(_ & Q)|(Q & _)]; [|contradiction]. f_equal. exact (tidied_fun _ _ _ (comment_tidied _) Q).
          - split; [intros Q; right; now split|]. intros [(Q & _)|(_ & Q)]; [contradiction|exact Q]. }
        rewrite S. split.
        * intros [(a & e & b & -> & R)|(M & [(L & Q)|(L & I)])]; [left; exists (x :: a), e, b; now split| |].
          { left. exists [], x, l. split; [reflexivity|]. split; [exact L|]. rewrite T. split; [discriminate|]. split; [exact Q|exact M]. }
          { right. split; [|exact I]. intros e [<-|J] L'; [contradiction|now apply M]. }
        * intros [([|y a] & e & b & E & L & NE & Q & R)|(M & I)].
          { injection E as -> ->. right. split; [exact R|]. left. rewrite T in Q. now split. }
          { injection E as -> ->. left. exists a, e, b. now repeat split. }
          { right. split; [intros e J L; apply M; [now right|exact L]|]. right. split; [|exact I]. intros L. rewrite (M x (or_introl eq_refl) L) in T. discriminate. }
  Qed.
  Lemma comments_ok n c : valid n -> load_comments ns rf n = Ok c -> comments_at ns root n c.
  Proof using OK.
    intros W H. unfold load_comments in H. apply bind_ok in H. destruct H as (l & L & H). pose proof (row_ok n _ _ l W L eq_refl) as R. change (listed ns root n ["DESC"] "L-2" l) in R.
    exists l. split; [exact R|]. destruct (comments_fold l [] (NoDup_nil _)) as (_ & F).
    assert (Q : all_comments c = fold_left add_comment l [] /\ c <> Some []).
    { change (fold_left _ l []) with (fold_left add_comment l []) in H. injection H as <-. destruct (fold_left add_comment l []); now split. }
    destruct Q as (Q & NE). split; [exact NE|]. intros lang t. rewrite Q, (F lang t). split; [intros [X|(_ & [])]; exact X|now left].
  Qed.

  Notation integer := (integer from_text from_hex).
  Lemma only_text n names m t : only n names m -> text_at n names t -> t = n_text m.
  Proof using. intros O (k & K & <-). now rewrite (only_fun ns root n names k m K O). Qed.
  Lemma first_ok t n m : n_find ns t n = Some m <-> first_kid ns t n m.
  Proof using. exact (find_iff (fun _ => None) (fun _ => Err ValueError) ns t n m). Qed.
  Lemma init_text_ok i sys o : valid i -> child i ["&SYSTEM-SIGNAL"] = Ok sys -> load_init_text ns rf ver i sys = Ok o ->
    forall t, t <> [] -> (o = Some t <-> initial_text ns root v4 i t).
  Proof using OK.
    intros W S H t NT. unfold load_init_text in H. unfold initial_text. destruct v4.
    - apply bind_ok in H. destruct H as (v & V & H). pose proof (at_child ns root rf OK _ i v W V eq_refl) as A. destruct v as [n|].
      + injection H as <-. destruct A as (_ & A). split; [intros [= <-]; left; exists n; split; [exact A|reflexivity]|]. intros [T|(N & _)]; [now rewrite (only_text _ _ _ _ A T)|destruct (only_nothing ns root _ _ n A N)].
      + apply bind_ok in H. destruct H as (w & X & H). injection H as <-. pose proof (at_child ns root rf OK _ i w W X eq_refl) as B. destruct w as [n|]; cbn [opt_text option_map].
        * destruct B as (_ & B). split; [intros [= <-]; right; split; [exact A|exists n; split; [exact B|reflexivity]]|]. intros [T|(_ & T)]; [destruct (text_nothing ns root _ _ _ A T)|now rewrite (only_text _ _ _ _ B T)].
        * split; [discriminate|]. intros [T|(_ & T)]; [destruct (text_nothing ns root _ _ _ A T)|destruct (text_nothing ns root _ _ _ B T)].
    - pose proof (at_child ns root rf OK _ i sys W S eq_refl) as B. destruct sys as [y|].
      + destruct B as (VY & B). change (only i ["SYSTEM-SIGNAL"] y) in B. destruct (n_find ns "INIT-VALUE-REF" y) as [r|] eqn:R.
        * apply bind_ok in H. destruct H as (l & L & H). apply first_ok in R as R'.
          assert (U : forall y' r', only i ["SYSTEM-SIGNAL"] y' -> first_kid ns "INIT-VALUE-REF" y' r' -> y' = y /\ r' = r).
          { intros y' r' O F. pose proof (only_fun ns root _ _ y' y O B) as ->. apply first_ok in F. split; [reflexivity|congruence]. }
          destruct l as [k|].
          { apply (refers_iff ns root rf OK y r k VY) in L as L'. injection H as <-. split.
            - intros E. destruct (n_find ns "VALUE" k) as [v|] eqn:V; [|discriminate]. injection E as <-. apply first_ok in V. exists y, r, k, v. now repeat split; try apply B.
            - intros (y' & r' & k' & v' & O & F & RF & FV & <-). destruct (U y' r' O F) as (-> & ->). apply (refers_iff ns root rf OK y r k' VY) in RF. rewrite RF in L. injection L as ->. apply first_ok in FV. now rewrite FV. }
          { injection H as <-. split; [discriminate|]. intros (y' & r' & k' & v' & O & F & RF & _). destruct (U y' r' O F) as (-> & ->). apply (refers_iff ns root rf OK y r k' VY) in RF. congruence. }
        * injection H as <-. split; [discriminate|]. intros (y' & r' & k' & v' & O & F & _). pose proof (only_fun ns root _ _ y' y O B) as ->. apply first_ok in F. congruence.
      + injection H as <-. split; [discriminate|]. intros (y' & ? & ? & ? & O & _). destruct (only_nothing ns root _ _ y' O B).
  Qed.
  Lemma initial_ok i sys o : valid i -> child i ["&SYSTEM-SIGNAL"] = Ok sys -> load_initial from_text from_hex ns rf ver i sys = Ok o ->
    forall z, o = Some z <-> exists t, initial_text ns root v4 i t /\ integer t = Ok z.
  Proof using OK.
    intros W S H z. unfold load_initial in H. apply bind_ok in H. destruct H as (x & X & H). pose proof (init_text_ok i sys x W S X) as I. destruct x as [t|].
    - destruct t as [|c r].
      + injection H as <-. split; [discriminate|]. intros (t & T & Z). destruct t as [|c r]; [discriminate|]. apply (I (c :: r) ltac:(discriminate)) in T. discriminate.
      + assert (E : forall t, initial_text ns root v4 i t /\ t <> [] -> t = c :: r) by (intros t (T & N); apply (I t N) in T; congruence).
        destruct (integer (c :: r)) as [y|e] eqn:Y.
        * injection H as <-. split; [intros [= <-]; exists (c :: r); split; [now apply I|exact Y]|]. intros (t & T & Z). destruct t as [|d s]; [discriminate|]. assert (D : d :: s = c :: r) by (apply E; split; [exact T|discriminate]). rewrite D in Z. rewrite Y in Z. injection Z as ->. reflexivity.
        * assert (o = None) as -> by (destruct e; congruence). split; [discriminate|]. intros (t & T & Z). destruct t as [|d s]; [discriminate|]. assert (D : d :: s = c :: r) by (apply E; split; [exact T|discriminate]). rewrite D in Z. rewrite Y in Z. discriminate.
    - injection H as <-. split; [discriminate|]. intros (t & T & Z). destruct t as [|c r]; [discriminate|]. apply (I (c :: r) ltac:(discriminate)) in T. discriminate.
  Qed.
  (** An initial value that is no number does not spoil the file: the signal has none. *)
  Theorem C73_initial_tolerated i sys o t : valid i -> child i ["&SYSTEM-SIGNAL"] = Ok sys -> load_init_text ns rf ver i sys = Ok o ->
    initial_text ns root v4 i t -> t <> [] -> integer t = Err ValueError -> load_initial from_text from_hex ns rf ver i sys = Ok None.
  Proof using OK.
    intros W S H T N E. apply (init_text_ok i sys o W S H t N) in T. unfold load_initial. rewrite H, T. cbn [bind]. destruct t as [|c r]; [now contradiction N|]. now rewrite E.
  Qed.
  Lemma opt_int_iff n names o z : opt_int_at from_text from_hex ns root n names o -> (o = Some z <-> int_at from_text from_hex ns root n names z).
  Proof using.
    destruct o as [y|]; intros H; (split; [intros [=]; now subst|]).
    - intros Z. f_equal. exact (int_fun from_text from_hex ns root _ _ _ _ H Z).
    - intros (t & T & _). destruct (text_nothing ns root _ _ _ H T).
  Qed.
  Lemma invalid_ok i sys o : valid i -> child i ["&SYSTEM-SIGNAL"] = Ok sys -> load_invalid from_text from_hex ns rf ver i sys = Ok o ->
    forall z, o = Some z <-> invalid_value from_text from_hex ns root v4 i z.
  Proof using OK.
    intros W S H z. unfold load_invalid in H. unfold invalid_value. destruct v4.
    - apply bind_ok in H. destruct H as (v & V & H). exact (opt_int_iff _ _ _ z (get_opt_int from_text from_hex ns root rf OK i _ v o W V eq_refl H)).
    - apply bind_ok in H. destruct H as (v & V & H). destruct sys as [y|]; [|discriminate]. cbn [child_exn] in V. destruct (at_child ns root rf OK _ i _ W S eq_refl) as (VY & B). change (only i ["SYSTEM-SIGNAL"] y) in B.
      pose proof (at_child ns root rf OK _ y v VY V eq_refl) as A. destruct v as [n|].
      + destruct A as (VN & A). change (only y ["DATA-TYPE"; "SW-DATA-DEF-PROPS"; "INVALID-VALUE"] n) in A.
        assert (U : forall y' n', only i ["SYSTEM-SIGNAL"] y' -> only y' ["DATA-TYPE"; "SW-DATA-DEF-PROPS"; "INVALID-VALUE"] n' -> n' = n).
        { intros y' n' O O'. pose proof (only_fun ns root _ _ y' y O B) as ->. exact (only_fun ns root _ _ n' n O' A). }
        apply bind_ok in H. destruct H as (l & L & H). pose proof (at_child ns root rf OK _ n l VN L eq_refl) as C. destruct l as [x|].
        * destruct C as (_ & C). pose proof (get_opt_int from_text from_hex ns root rf OK n _ (Some x) o VN L eq_refl H) as G. split.
          { intros ->. exists y, n. split; [exact B|]. split; [exact A|]. left. exact G. }
          { intros (y' & n' & O & O' & R). rewrite (U y' n' O O') in R. destruct R as [R|(R & _)]; [|destruct (only_nothing ns root _ _ x C R)]. exact (proj2 (opt_int_iff _ _ _ z G) R). }
        * apply bind_ok in H. destruct H as (b & BB & H). pose proof (at_child ns root rf OK _ n b VN BB eq_refl) as D. destruct b as [x|].
          { destruct D as (_ & D). assert (E0 : o = Some (if is_text "true" (strip_space (lower_text (n_text x))) then 1 else 0)) by (destruct (n_text x); [discriminate|now injection H as <-]). rewrite E0. clear E0 H.
            assert (TX : text_at n ["BOOLEAN-LITERAL"; "VALUE"] (n_text x)) by (exists x; split; [exact D|reflexivity]). split.
            - intros E. exists y, n. split; [exact B|]. split; [exact A|]. right. split; [exact C|]. exists (n_text x), (strip_space (lower_text (n_text x))). split; [exact TX|]. split; [now apply strip_trimmed|].
              destruct (is_text "true" (strip_space (lower_text (n_text x)))) eqn:Q; injection E as <-; [left; split; [now apply is_text_iff|reflexivity]|right; split; [|reflexivity]]. intros Y. apply is_text_iff in Y. congruence.
            - intros (y' & n' & O & O' & R). rewrite (U y' n' O O') in R. destruct R as [(t & R & _)|(_ & t & w & R & TR & V')]; [destruct (text_nothing ns root _ _ _ C R)|].
              rewrite (text_fun ns root _ _ _ _ R TX) in TR. apply strip_trimmed in TR. change (map to_lower (n_text x)) with (lower_text (n_text x)) in TR. rewrite TR. f_equal. destruct V' as [(-> & ->)|(N & ->)]; [reflexivity|].
              destruct (is_text "true" w) eqn:Q; [|reflexivity]. apply is_text_iff in Q. contradiction. }
          { injection H as <-. split; [discriminate|]. intros (y' & n' & O & O' & R). rewrite (U y' n' O O') in R. destruct R as [(t & R & _)|(_ & t & w & R & _)]; [destruct (text_nothing ns root _ _ _ C R)|destruct (text_nothing ns root _ _ _ D R)]. }
      + injection H as <-. split; [discriminate|]. intros (y' & n' & O & O' & R). pose proof (only_fun ns root _ _ y' y O B) as ->. destruct (only_nothing ns root _ _ n' O' A).
  Qed.
  (** The other things that the mapping of a signal says about it: the raw initial value and the raw value for no value, which
      are scaled like any other, the unit and the comments. *)
  Definition scaled_value (c : conversion) (raw : option num) (v : option value) : Prop :=
    match raw, v with Some n, Some v => raw_to_scaled c n true = Ok v | None, None => True | _, _ => False end.
  Definition furnished (m : node) (s : asignal) : Prop :=
    exists i, only m (either v4 ["I-SIGNAL"] ["SIGNAL"]) i /\
      (forall n, a_raw_initial s = Some n <-> exists t z, initial_text ns root v4 i t /\ integer t = Ok z /\ n = NInt z) /\
      (forall n, a_raw_invalid s = Some n <-> exists z, invalid_value from_text from_hex ns root v4 i z /\ n = NInt z) /\
      scaled_value (s_conv (a_sig s)) (a_raw_initial s) (a_initial s) /\ scaled_value (s_conv (a_sig s)) (a_raw_invalid s) (a_invalid s) /\
      (nothing i ["SYSTEM-SIGNAL"] /\ a_unit s = None /\ a_comments s = None \/
       exists sys, only i ["SYSTEM-SIGNAL"] sys /\ unit_at ns root v4 sys (a_unit s) /\ comments_at ns root sys (a_comments s)).
  Lemma scaled_opt_ok c o v : scaled_opt c o = Ok v -> scaled_value c (option_map NInt o) v.
  Proof using. unfold scaled_opt. destruct o as [z|]; [|now intros [= <-]]. intros H. apply bind_ok in H. destruct H as (x & X & H). injection H as <-. exact X. Qed.
  Theorem C73_furnished m s : valid m -> load_signal from_text from_hex ns rf ver m = Ok (Some s) -> furnished m s.
  Proof using OK.
    intros W H. unfold load_signal in H. apply bind_ok in H. destruct H as (io & C & H). destruct io as [i|]; [|discriminate].
    assert (A : valid i /\ only m (either v4 ["I-SIGNAL"] ["SIGNAL"]) i).
    { pose proof (at_child ns root rf OK (loc ver ["&I-SIGNAL"] ["&SIGNAL"]) m _ W C ltac:(unfold loc; now destruct v4)) as A. rewrite either_bare in A. exact A. }
    destruct A as (VI & A). apply bind_ok in H. destruct H as (sys & S & H). pose proof (at_child ns root rf OK _ i sys VI S eq_refl) as B. cbn [map] in B. change (bare "&SYSTEM-SIGNAL") with "SYSTEM-SIGNAL" in B.
    destruct (match sys with Some s => negb (has_tag ns "SYSTEM-SIGNAL" s) | None => false end); [discriminate|].
    apply bind_ok in H. destruct H as (name & N & H). apply bind_ok in H. destruct H as (so & SO & H). apply bind_ok in H. destruct H as (start & ST & H).
    apply bind_ok in H. destruct H as (len & L & H). apply bind_ok in H. destruct H as (big & BG & H). apply bind_ok in H. destruct H as (ty & TY & H).
    apply bind_ok in H. destruct H as (((((((mn & mx) & fa) & of) & ch) & un) & com) & PH & H). apply bind_ok in H. destruct H as (ini & INI & H). apply bind_ok in H. destruct H as (inv & INV & H).
    apply bind_ok in H. destruct H as (conv & CV & H). apply bind_ok in H. destruct H as (s' & NS & H). injection H as ->. unfold new_signal in NS. apply bind_ok in NS. destruct NS as (vi & VI' & NS). apply bind_ok in NS. destruct NS as (vv & VV & NS). injection NS as <-.
    exists i. cbn [a_raw_initial a_raw_invalid a_initial a_invalid a_unit a_comments a_sig s_conv]. split; [exact A|]. split.
    { intros n. pose proof (initial_ok i sys ini VI S INI) as I. split.
      - destruct ini as [z|]; [|discriminate]. intros [= <-]. destruct (proj1 (I z) eq_refl) as (t & T & Z). now exists t, z.
      - intros (t & z & T & Z & ->). assert (ini = Some z) as -> by (apply I; now exists t). reflexivity. }
    split.
    { intros n. pose proof (invalid_ok i sys inv VI S INV) as I. split.
      - destruct inv as [z|]; [|discriminate]. intros [= <-]. exists z. split; [now apply I|reflexivity].
      - intros (z & Z & ->). apply I in Z. now rewrite Z. }
    split; [now apply scaled_opt_ok|]. split; [now apply scaled_opt_ok|]. destruct sys as [y|].
    - right. destruct B as (VY & B). exists y. split; [exact B|]. unfold load_system_signal in PH. apply bind_ok in PH. destruct PH as (cm & CM & PH). apply bind_ok in PH. destruct PH as (u & U & PH). apply bind_ok in PH. destruct PH as (c & CC & PH).
      assert (E : un = u /\ com = c).
      { destruct cm as [k|]; [|now injection PH as _ _ _ _ _ <- <-]. apply bind_ok in PH. destruct PH as (cat & _ & PH). destruct cat as [q|]; [|now injection PH as _ _ _ _ _ <- <-].
        destruct (is_text "TEXTTABLE" (n_text q)); [apply bind_ok in PH; destruct PH as (? & _ & PH); now injection PH as _ _ _ _ _ <- <-|]. destruct (is_text "LINEAR" (n_text q)); [apply bind_ok in PH; destruct PH as (? & _ & PH); now injection PH as _ _ <- <-|].
        destruct (is_text "SCALE_LINEAR_AND_TEXTTABLE" (n_text q)); [apply bind_ok in PH; destruct PH as ((? & ?) & _ & PH); now injection PH as _ _ <- <-|]. now injection PH as _ _ _ _ _ <- <-. }
      destruct E as (-> & ->). split; [exact (unit_ok y cm u VY CM U)|now apply comments_ok].
    - left. injection PH as _ _ _ _ _ <- <-. now repeat split.
  Qed.

  (** *** All the signals of a PDU *)
  (** The mappings of a PDU and of those that it is made of *)
  Inductive within : node -> node -> Prop :=
  | wi_here pdu m : mapping_of ns root v4 pdu m -> within pdu m
  | wi_payload pdu q m : only pdu ["PAYLOAD"; "I-PDU"] q -> within q m -> within pdu m
  | wi_dynamic pdu alt q m : alternative ns root v4 pdu alt -> only alt ["I-PDU"] q -> within q m -> within pdu m
  | wi_static pdu q m : static_part ns root v4 pdu q -> within q m -> within pdu m.
  (** The signal [s] is that of the mapping [m], but may depend on a selector *)
  Definition described (m : node) (s : asignal) : Prop :=
    (exists p, maps from_text from_hex ns root v4 m p /\ pl_name p = s_name (a_sig s) /\ pl_start p = s_start (a_sig s) /\ pl_length p = s_length (a_sig s)) /\
    (exists me, signal_means from_text from_hex ns root v4 m me /\ scaled_as me (a_sig s)) /\ furnished m s.
  (** A selector stands for its raw value, unless this has a name *)
  Definition plain_selector (s : asignal) : Prop :=
    s_is_mux (a_sig s) = true /\ s_min (a_sig s) = None /\ s_max (a_sig s) = None /\ a_unit s = None /\ a_comments s = None /\
    exists tb, factory (NInt 1) (NInt 0) tb false = Ok (s_conv (a_sig s)).
  Definition known (pdu : node) (s : asignal) : Prop := plain_selector s \/ exists m, within pdu m /\ described m s.
  Lemma described_mux m sel v s : described m s -> described m (set_mux sel v s).
  Proof using. unfold set_mux. destruct (s_mux_sig (a_sig s)); trivial. Qed.
  Lemma plain_mux sel v s : plain_selector s -> plain_selector (set_mux sel v s).
  Proof using. unfold set_mux. destruct (s_mux_sig (a_sig s)); trivial. Qed.
  Lemma known_mux q sel v s : known q s -> known q (set_mux sel v s).
  Proof using. intros [P|(m & M & D)]; [left; now apply plain_mux|right; exists m; split; [exact M|now apply described_mux]]. Qed.
  Lemma known_deeper pdu q s : (forall m, within q m -> within pdu m) -> known q s -> known pdu s.
  Proof using. intros I [P|(m & M & D)]; [now left|right; exists m; split; [now apply I|exact D]]. Qed.
  Lemma described_ok m s : valid m -> load_signal from_text from_hex ns rf ver m = Ok (Some s) -> described m s.
  Proof using OK FT FH.
    intros W H. split; [|split; [exact (C73_scaling m s W H)|exact (C73_furnished m s W H)]]. exists (place_of (a_sig s)). split; [exact (signal_ok from_text from_hex ns root rf OK ver m (Some s) W H)|now repeat split].
  Qed.
  Lemma pdu_known pdu l : valid pdu -> load_pdu_signals from_text from_hex ns rf ver pdu = Ok l -> forall s, In s l -> known pdu s.
  Proof using OK FT FH.
    intros W H s I. unfold load_pdu_signals in H. apply bind_ok in H. destruct H as (a & CA & H). apply bind_ok in H. destruct H as (b & CB & H). apply bind_ok in H. destruct H as (os & M & H). injection H as <-.
    assert (G : forallb good_atom (loc ver ["I-SIGNAL-TO-PDU-MAPPINGS"; "*&I-SIGNAL-TO-I-PDU-MAPPING"] ["SIGNAL-TO-PDU-MAPPINGS"; "*&I-SIGNAL-TO-I-PDU-MAPPING"]) = true) by (unfold loc; now destruct v4).
    assert (IN : forall m, In m (a ++ b) -> mapping_of ns root v4 pdu m).
    { intros m J. apply in_app_iff in J. rewrite (at_children ns root rf OK _ pdu a W CA G m), (at_children ns root rf OK _ pdu b W CB eq_refl m), either_bare in J. unfold mapping_of, either in *. now destruct v4. }
    assert (V : Forall valid (a ++ b)) by (apply Forall_app; split; [exact (children_valid ns root rf OK _ pdu a W CA G)|exact (children_valid ns root rf OK _ pdu b W CB eq_refl)]).
    rewrite Forall_forall in V. pose proof (mapM_nth _ _ _ M) as Z. apply in_flat_map in I. destruct I as (o & I & S). destruct o as [s'|]; [|destruct S]. destruct S as [->|[]].
    apply In_nth_error in I. destruct I as (k & I). apply (Z k) in I. destruct I as (m & J & E). apply nth_error_In in J. right. exists m. split; [apply wi_here; now apply IN|]. exact (described_ok m s (V m J) E).
  Qed.
  Section Step.
    Context (frame : chars) (load : node -> Z -> result pdu_load).
    Context (IH : forall q next r, valid q -> load q next = Ok r -> forall s, In s (p_signals r) -> known q s).
    Lemma alternatives_known pdu sel pos len next alts : Forall (fun alt => valid alt /\ alternative ns root v4 pdu alt) alts ->
      forall st st', foldM (load_alternative from_text from_hex ns rf load sel pos len next) alts st = Ok st' ->
      (forall s, In s (x_signals st) -> known pdu s) -> forall s, In s (x_signals st') -> known pdu s.
    Proof using OK IH.
      induction 1 as [|alt alts (W & A) _ IHl]; intros st st' H K; [now injection H as <-|]. cbn in H. apply bind_ok in H. destruct H as (s1 & H1 & H). apply (IHl s1 st' H). clear IHl H st'.
      intros s I. unfold load_alternative in H1. apply bind_ok in H1. destruct H1 as (vo & CV & H). apply bind_ok in H. destruct H as (v & V & H). apply bind_ok in H. destruct H as (po & CP & H).
      apply bind_ok in H. destruct H as (ro & _ & H). apply bind_ok in H. destruct H as (path & _ & H). apply bind_ok in H. destruct H as (r & L & H). apply bind_ok in H. destruct H as (io & _ & H). apply bind_ok in H. destruct H as (ini & _ & H).
      destruct po as [q|]; [|discriminate]. destruct (at_child ns root rf OK _ alt _ W CP eq_refl) as (VQ & OQ). change (only alt ["I-PDU"] q) in OQ.
      destruct (filter (fun s => s_start (a_sig s) =? pos) (p_signals r)) as [|d [|? ?]]; [discriminate| |discriminate]. destruct (s_length (a_sig d) =? len); [|discriminate]. injection H as <-. cbn [x_signals] in I.
      apply in_app_or in I. destruct I as [I|I]; [now apply K|]. apply in_map_iff in I. destruct I as (s' & <- & I). apply filter_In in I. destruct I as (I & _). apply known_mux. apply (known_deeper pdu q); [|exact (IH q next r VQ L s' I)].
      intros m M. exact (wi_dynamic pdu alt q m A OQ M).
    Qed.
    Lemma multiplexed_known pdu next out : valid pdu -> load_multiplexed from_text from_hex ns rf ver load frame pdu next = Ok out ->
      forall s, In s (fst (fst out)) -> known pdu s.
    Proof using OK IH.
      intros W H s. unfold load_multiplexed in H. apply bind_ok in H. destruct H as (po & CP & H). apply bind_ok in H. destruct H as (pos & P & H). apply bind_ok in H. destruct H as (lo & CL & H). apply bind_ok in H. destruct H as (len & L & H).
      apply bind_ok in H. destruct H as (bo & CB & H). apply bind_ok in H. destruct H as (big & B & H). apply bind_ok in H. destruct H as (alts & CA & H). apply bind_ok in H. destruct H as (st & F & H). apply bind_ok in H. destruct H as (conv & CV & H).
      apply bind_ok in H. destruct H as (sel & SE & H). apply bind_ok in H. destruct H as (refs & CR & H). apply bind_ok in H. destruct H as (statics & M & H). injection H as <-. cbn [fst].
      assert (G1 : forallb good_atom (loc ver ["DYNAMIC-PARTS"; "*DYNAMIC-PART"; "DYNAMIC-PART-ALTERNATIVES"; "*DYNAMIC-PART-ALTERNATIVE"] ["DYNAMIC-PART"; "DYNAMIC-PART-ALTERNATIVES"; "*DYNAMIC-PART-ALTERNATIVE"]) = true) by (unfold loc; now destruct v4).
      assert (G2 : forallb good_atom (loc ver ["STATIC-PARTS"; "*STATIC-PART"; "I-PDU-REF"] ["STATIC-PART"; "I-PDU-REF"]) = true) by (unfold loc; now destruct v4).
      pose proof (at_children ns root rf OK _ pdu alts W CA G1) as IA. rewrite either_bare in IA. pose proof (children_valid ns root rf OK _ pdu alts W CA G1) as VA.
      pose proof (at_children ns root rf OK _ pdu refs W CR G2) as IR. rewrite either_bare in IR.
      intros [<-|I].
      - left. unfold plain_selector. cbn [a_sig a_unit a_comments]. unfold new_signal in SE. apply bind_ok in SE. destruct SE as (vi & _ & SE). apply bind_ok in SE. destruct SE as (vv & _ & SE). injection SE as <-. cbn [a_sig s_is_mux s_min s_max s_conv].
        repeat split. destruct (x_choices st) as [|c0 cs0]; [exists None; exact CV|eexists; exact CV].
      - apply in_app_or in I. destruct I as [I|I].
        + assert (FA : Forall (fun alt => valid alt /\ alternative ns root v4 pdu alt) alts).
          { apply Forall_forall. intros a J. split; [rewrite Forall_forall in VA; now apply VA|]. apply IA in J. unfold alternative, either in *. now destruct v4. }
          refine (alternatives_known pdu _ _ _ _ alts FA _ _ F _ s I). intros ? [].
        + apply in_concat in I. destruct I as (l & I & S). apply in_map_iff in I. destruct I as (o & <- & I). apply In_nth_error in I. destruct I as (k & I). pose proof (mapM_nth _ _ _ M) as Z. apply (Z k) in I. destruct I as (r & R & E).
          apply nth_error_In in R. apply IR in R. unfold load_static in E. apply bind_ok in E. destruct E as (a & A & E). apply bind_ok in E. destruct E as (q' & FO & E). apply bind_ok in E. destruct E as (pl & LD & E). injection E as <-. cbn [fst] in S.
          destruct q' as [q|]; [|discriminate]. unfold follow in FO. apply bind_ok in FO. destruct FO as (a' & A' & FO). injection FO as FO.
          destruct (absolute_nonempty ns rf _ _ _ _ A) as (N1 & N2). apply (look_up_iff ns root rf OK) in FO. apply (known_deeper pdu q); [|exact (IH q (next + 1) pl ltac:(apply FO) LD s S)].
          intros m WM. apply (wi_static pdu q m); [|exact WM]. exists r, (n_attr r "BASE"), (n_attr r "DEST"), a, a'. split; [exact R|]. split; [apply attr_get|]. split; [apply attr_get|]. split; [exact N1|].
          split; [now apply (stands_iff ns root rf OK pdu _ _ _ W N1)|]. split; [now apply (stands_iff ns root rf OK pdu _ _ _ W N2)|exact FO].
    Qed.
    Lemma step_known sort pdu next r : valid pdu -> load_pdu_step from_text from_hex ns rf ver sort load frame pdu next = Ok r ->
      forall s, In s (p_signals r) -> known pdu s.
    Proof using OK IH FT FH.
      intros W H s I. unfold load_pdu_step in H. destruct (has_tag ns "CONTAINER-I-PDU" pdu).
      { assert (E : p_signals r = []).
        { apply bind_ok in H. destruct H as (lo & _ & H). apply bind_ok in H. destruct H as (? & _ & H). apply bind_ok in H. destruct H as (ho & _ & H). apply bind_ok in H. destruct H as (ht & _ & H).
          destruct (is_text "SHORT-HEADER" ht); [|now injection H as <-]. apply bind_ok in H. destruct H as (cs & _ & H). apply bind_ok in H. destruct H as (l & _ & H). now injection H as <-. }
        rewrite E in I. destruct I. }
      destruct (has_tag ns "SECURED-I-PDU" pdu).
      { apply bind_ok in H. destruct H as (pp & CP & H). destruct pp as [q|]; [|discriminate]. apply bind_ok in H. destruct H as (l & L & H). apply bind_ok in H. destruct H as (here & _ & H). injection H as <-. cbn [p_signals] in I.
        unfold payload_of in CP. destruct (at_child ns root rf OK _ pdu _ W CP eq_refl) as (VQ & OQ). change (only pdu ["PAYLOAD"; "I-PDU"] q) in OQ. apply (known_deeper pdu q); [|exact (IH q next l VQ L s I)]. intros m M. exact (wi_payload pdu q m OQ M). }
      apply bind_ok in H. destruct H as (lo & _ & H). apply bind_ok in H. destruct H as (? & _ & H). apply bind_ok in H. destruct H as (cyc & _ & H). apply bind_ok in H. destruct H as (sigs & S & H).
      destruct (has_tag ns "MULTIPLEXED-I-PDU" pdu).
      - apply bind_ok in H. destruct H as (((ms & mc) & mp) & M & H). injection H as <-. cbn [p_signals] in I. apply in_app_or in I. destruct I as [I|I]; [exact (pdu_known pdu sigs W S s I)|]. exact (multiplexed_known pdu next _ W M s I).
      - injection H as <-. cbn [p_signals] in I. exact (pdu_known pdu sigs W S s I).
    Qed.
  End Step.
  Theorem C73_pdu sort k frame pdu next r s : valid pdu -> load_pdu from_text from_hex ns rf ver sort k frame pdu next = Ok r -> In s (p_signals r) -> known pdu s.
  Proof using OK FT FH.
    revert pdu next r s. induction k as [|k IH]; intros pdu next r s W H; [discriminate|]. exact (step_known frame _ (fun q next r V L s => IH q next r s V L) sort pdu next r W H s).
  Qed.
End Proofs.

(** ** Concrete cases *)
Lemma ex_doubles : (forall t f, ex_float t = Some f -> double (NFlt f)) /\ (forall t f, ex_hex t = Ok f -> double (NFlt f)).
Proof.
  split; intros t f H.
  - unfold ex_float in H. repeat match type of H with (if ?b then _ else _) = _ => destruct b; [injection H as <-; vm_compute; reflexivity|] end. discriminate.
  - unfold ex_hex in H. destruct (chars_eqb t (txt "0x1.8p1")); [injection H as <-; vm_compute; reflexivity|discriminate].
Qed.
Definition props (what : string) (l : list xml) : xml := el what [] "" [el "SW-DATA-DEF-PROPS-VARIANTS" [] "" [el "SW-DATA-DEF-PROPS-CONDITIONAL" [] "" l]].
Definition method_el (name category : string) (scales : list (list xml)) (more : list xml) : xml :=
  named_el "COMPU-METHOD" name (leaf "CATEGORY" category :: el "COMPU-INTERNAL-TO-PHYS" [] "" [el "COMPU-SCALES" [] "" (map (el "COMPU-SCALE" [] "") scales)] :: more).
Definition limits (lo hi : string) : list xml := [leaf "LOWER-LIMIT" lo; leaf "UPPER-LIMIT" hi].
Definition name_scale (v t : string) : list xml := limits v v ++ [el "COMPU-CONST" [] "" [leaf "VT" t]].
Definition line_scale (lo hi a b d : string) : list xml :=
  limits lo hi ++ [el "COMPU-RATIONAL-COEFFS" [] "" [el "COMPU-NUMERATOR" [] "" [leaf "V" a; leaf "V" b]; el "COMPU-DENOMINATOR" [] "" [leaf "V" d]]].
Definition sys_signal (name method : string) (more : list xml) : xml :=
  named_el "SYSTEM-SIGNAL" name (more ++ [props "PHYSICAL-PROPS" [ref_el "COMPU-METHOD-REF" "COMPU-METHOD" ("/P/" ++ method)]]).
Definition of_system (name : string) : xml := ref_el "SYSTEM-SIGNAL-REF" "SYSTEM-SIGNAL" ("/P/" ++ name).
(** Mode has names for 0 and 1; the second name for 1, which is written as 0x1, counts.  Temp is raw / 2 - 20, in degC, and
    Mix is doubled up to 253 and has names above.  The initial value of Temp is no number. *)
Definition scale_elements : list xml :=
  [ named_el "UNIT" "Deg" [leaf "DISPLAY-NAME" "degC"];
    method_el "CmMode" "TEXTTABLE" [name_scale "0" "Off"; name_scale "1" "Started"; name_scale "0x1" "On"] [];
    method_el "CmTemp" "LINEAR" [line_scale "0" "255" "-40" "1" "2"] [ref_el "UNIT-REF" "UNIT" "/P/Deg"];
    method_el "CmMix" "SCALE_LINEAR_AND_TEXTTABLE" [line_scale "0" "253" "0" "2" "1"; name_scale "254" "Error"; limits "255" "300" ++ [el "COMPU-CONST" [] "" [leaf "VT" "Lost"]]] [];
    sys_signal "SMode" "CmMode" [el "DESC" [] "" [el "L-2" [("L", "EN")] " the mode " []; el "L-2" [("L", "DE")] "der Modus" []]];
    sys_signal "STemp" "CmTemp" []; sys_signal "SMix" "CmMix" [];
    i_signal "Mode" "8" [of_system "SMode"; el "INIT-VALUE" [] "" [el "NUMERICAL-VALUE-SPECIFICATION" [] "" [leaf "VALUE" "1"]]];
    i_signal "Temp" "8" [of_system "STemp"; el "INIT-VALUE" [] "" [el "NUMERICAL-VALUE-SPECIFICATION" [] "" [leaf "VALUE" "cold"]]; props "NETWORK-REPRESENTATION-PROPS" [el "INVALID-VALUE" [] "" [el "NUMERICAL-VALUE-SPECIFICATION" [] "" [leaf "VALUE" "0xFF"]]]];
    i_signal "Mix" "8" [of_system "SMix"];
    pdu_el "Q" "3" [] [mapping "Mode" "0" last_; mapping "Temp" "8" last_; mapping "Mix" "16" last_] ].
Definition scale_root : xml := sys_doc scale_elements.
Definition scale_rf : refs := refs_of scale_root.
Definition q_node : node := element_at scale_root 10.
Definition shown (s : asignal) : string * option num * option num * option chars * list (chars * chars) * option num * option value * option num :=
  (s_name (a_sig s), s_min (a_sig s), s_max (a_sig s), a_unit s, all_comments (a_comments s), a_raw_initial s, a_initial s, a_raw_invalid s).
Definition decoded (s : asignal) : list (result value) := map (fun z => raw_to_scaled (s_conv (a_sig s)) (NInt z) true) [0; 1; 254; 255].
Definition q_signals : list asignal :=
  match load_pdu ex_float ex_hex ex_ns scale_rf v40 SortDefault 3 (txt "Q") (fst q_node, snd q_node) 1 with Ok r => p_signals r | Err _ => [] end.
Lemma scale_ok : reference_dicts ex_ns scale_root = Ok scale_rf.
Proof. vm_compute. reflexivity. Qed.
Lemma q_valid : valid scale_root (fst q_node, snd q_node).
Proof. vm_compute. reflexivity. Qed.
Definition m20 : num := NFlt (S754_finite true 5629499534213120 (-48)).
(** -20, 107 = 254 / 2 - 20, 107.5 and 506 *)
Definition n107 : num := NFlt (S754_finite false 7529455627010048 (-46)).
Definition n107_5 : num := NFlt (S754_finite false 7564639999098880 (-46)).
Definition n506 : num := NFlt (S754_finite false 8901646138474496 (-44)).
Example C73_pdu_hypotheses : reference_dicts ex_ns scale_root = Ok scale_rf /\ valid scale_root (fst q_node, snd q_node) /\
  (exists r, load_pdu ex_float ex_hex ex_ns scale_rf v40 SortDefault 3 (txt "Q") (fst q_node, snd q_node) 1 = Ok r /\ p_signals r = q_signals /\
     forall s, In s q_signals -> known ex_float ex_hex ex_ns scale_root v40 (fst q_node, snd q_node) s) /\
  map shown q_signals =
    [("Mode", None, None, None, [(txt "EN", txt "the mode"); (txt "DE", txt "der Modus")], Some (NInt 1), Some (VNamed 1 "On"), None);
     ("Temp", Some m20, Some n107_5, Some (txt "degC"), [], None, None, Some (NInt 255));
     ("Mix", Some zero, Some n506, None, [], None, None, None)] /\
  map decoded q_signals =
    [[Ok (VNamed 0 "Off"); Ok (VNamed 1 "On"); Ok (VNum (NInt 254)); Ok (VNum (NInt 255))];
     [Ok (VNum m20); Ok (VNum (NFlt (S754_finite true 5488762045857792 (-48)))); Ok (VNum n107); Ok (VNum n107_5)];
     [Ok (VNum (NInt 0)); Ok (VNum (NInt 2)); Ok (VNamed 254 "Error"); Ok (VNum (NInt 510))]].
Proof.
  split; [exact scale_ok|]. split; [exact q_valid|]. split; [|split; vm_compute; reflexivity].
  destruct (load_pdu ex_float ex_hex ex_ns scale_rf v40 SortDefault 3 (txt "Q") (fst q_node, snd q_node) 1) as [r|e] eqn:E.
  - assert (Q : p_signals r = q_signals) by (unfold q_signals; now rewrite E). exists r. split; [reflexivity|]. split; [exact Q|]. intros s I. rewrite <- Q in I.
    exact (C73_pdu ex_float ex_hex (proj1 ex_doubles) (proj2 ex_doubles) ex_ns scale_root scale_rf scale_ok v40 SortDefault 3 (txt "Q") _ 1 r s q_valid E I).
  - exfalso. assert (Q : List.length q_signals = 3%nat) by (vm_compute; reflexivity). unfold q_signals in Q. rewrite E in Q. discriminate.
Qed.
Definition node_at (root : xml) (p : list nat) : node := (p, match elem_at root p with Some e => e | None => root end).
Definition mode_map : node := node_at scale_root [0; 0; 1; 10; 2; 0]%nat.
Definition mode_signal : option asignal := match load_signal ex_float ex_hex ex_ns scale_rf v40 mode_map with Ok o => o | Err _ => None end.
(** The names of Mode as the specification has them: that of 1 is the last one *)
Example C73_scaling_hypotheses : valid scale_root mode_map /\
  exists s me l, load_signal ex_float ex_hex ex_ns scale_rf v40 mode_map = Ok (Some s) /\ s_name (a_sig s) = "Mode" /\
    signal_means ex_float ex_hex ex_ns scale_root true mode_map me /\ me_names me = Some l /\ name_for l 1 (txt "On") /\ furnished ex_float ex_hex ex_ns scale_root v40 mode_map s.
Proof.
  assert (V : valid scale_root mode_map) by (vm_compute; reflexivity). split; [exact V|].
  assert (E : exists s, load_signal ex_float ex_hex ex_ns scale_rf v40 mode_map = Ok (Some s) /\ s_name (a_sig s) = "Mode" /\ raw_to_scaled (s_conv (a_sig s)) (NInt 1) true = Ok (VNamed 1 "On")).
  { eexists. split; [vm_compute; reflexivity|]. split; vm_compute; reflexivity. }
  destruct E as (s & L & N & R). destruct (C73_decoded ex_float ex_hex (proj1 ex_doubles) (proj2 ex_doubles) ex_ns scale_root scale_rf scale_ok v40 mode_map s 1 _ V L R) as (me & M & [(l & t & NL & NF & ET)|(_ & c & F & C)]).
  - exists s, me, l. split; [exact L|]. split; [exact N|]. split; [exact M|]. split; [exact NL|].
    split; [|exact (C73_furnished ex_float ex_hex ex_ns scale_root scale_rf scale_ok v40 mode_map s V L)].
    injection ET as ET. assert (t = txt "On") as <-; [|exact NF]. unfold txt. rewrite ET. symmetry. apply list_ascii_of_string_of_list_ascii.
  - exfalso. unfold factory in F. apply bind_ok in F. destruct F as (i & _ & F). injection F as <-. cbn in C. destruct i; cbn in C; repeat (apply bind_ok in C; destruct C as (? & _ & C)); discriminate.
Qed.
(** What one might expect but does not hold.  A LINEAR method of two pieces makes the file unreadable, since only one scale
    is looked for; *)
Definition pieces_root : xml := sys_doc
  [ method_el "Cm" "LINEAR" [line_scale "0" "9" "0" "1" "1"; line_scale "10" "19" "0" "2" "1"] []; sys_signal "S" "Cm" []; i_signal "A" "8" [of_system "S"]; pdu_el "Q" "1" [] [mapping "A" "0" last_] ].
Theorem C73_pieces_refuted : reference_dicts ex_ns pieces_root = Ok (refs_of pieces_root) /\ valid pieces_root (element_at pieces_root 3) /\
  load_pdu ex_float ex_hex ex_ns (refs_of pieces_root) v40 SortDefault 3 (txt "Q") (element_at pieces_root 3) 1 = Err ValueError.
Proof.
  split; [vm_compute; reflexivity|]. split; [vm_compute; reflexivity|].
  change (load_pdu ex_float ex_hex ex_ns (refs_of pieces_root) v40 SortDefault 3 (txt "Q") (fst (element_at pieces_root 3), snd (element_at pieces_root 3)) 1 = Err ValueError). vm_compute. reflexivity.
Qed.
(** and in AUTOSAR 3 so does a signal without a system signal, which AUTOSAR 4 allows. *)
Definition alone_el : xml := named_el "I-SIGNAL-TO-I-PDU-MAPPING" "Map" [ref_el "SIGNAL-REF" "I-SIGNAL" "/P/A"; ref_el "I-SIGNAL-REF" "I-SIGNAL" "/P/A"; leaf "START-POSITION" "0"].
Definition alone_root : xml := sys_doc [i_signal "A" "8" []; named_el "I-SIGNAL-I-PDU" "Q" [leaf "LENGTH" "1"; el "I-SIGNAL-TO-I-PDU-MAPPINGS" [] "" [alone_el]]].
Theorem C73_alone_refuted : reference_dicts ex_ns alone_root = Ok (refs_of alone_root) /\ valid alone_root (element_at alone_root 1) /\
  load_pdu ex_float ex_hex ex_ns (refs_of alone_root) (3, 2, 3) SortDefault 3 (txt "Q") (element_at alone_root 1) 1 = Err ValueError /\
  exists r, load_pdu ex_float ex_hex ex_ns (refs_of alone_root) v40 SortDefault 3 (txt "Q") (element_at alone_root 1) 1 = Ok r /\ map (fun s => s_name (a_sig s)) (p_signals r) = ["A"].
Proof.
  split; [vm_compute; reflexivity|]. split; [vm_compute; reflexivity|].
  change (element_at alone_root 1) with (fst (element_at alone_root 1), snd (element_at alone_root 1)). split; [vm_compute; reflexivity|]. eexists. split; [vm_compute; reflexivity|]. vm_compute. reflexivity.
Qed.
